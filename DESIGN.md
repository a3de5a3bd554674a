# Formal model of gritzko/ron-cxx in Rocq (Coq 8.16.1)

## Layout

Every area has up to four files in `rocq/theories/`:

| file | holds |
|---|---|
| `XModel.v` | the C++ functions as total Gallina functions, each with a `file:lines` comment; no proofs |
| `XSpec.v`  | a small independent specification used in the theorem statements |
| `XProofs.v` | lemmas |
| `XTheorems.v` | one theorem per property, closed by `exact`, plus a concrete `Example` meeting its hypotheses and `Print Assumptions` |

`TextTable.v` is generated by `tools/gen_text_table.py` from the Ragel-generated
goto code in `/repo/ron/text-parser.cc`. The generated file is committed.

## Conventions of the model

* A byte is an `N` below 256, a C++ string/buffer is a `list N`, a 64-bit word is an `N` below 2^64
  with explicit `mod 2^64` where the code can wrap.
* Undefined behaviour (out-of-bounds index, `front()` of an empty container) is a distinct outcome,
  not a default value.
* Loops are structural recursion or fuel; running out of fuel is a distinct outcome which the theorems exclude.
* `assert` is a precondition stated in the theorem (the CMake build sets no `NDEBUG`, so a violated assert aborts).
* Properties that are false of the code are kept in full view and answered by a theorem with the suffix `_refuted`
  (a concrete witness, checked by the kernel), next to the strongest true version found.

## Plan per property

| id | model | proof |
|---|---|---|
| C01 | Word/Uuid text writer (`uuid.cc`), 6-state parser (`uuid-parser.cc`) | digits of a 60-bit word, induction over the digit list; which ids come back: `UuidExact.v` |
| C02 | same parser | automaton invariant; independent grammar as a decomposition of the string |
| C03 | same | from C01 and well-formedness of parser output |
| C04 | Word writer | lexicographic order on digit lists vs positional value |
| C05 | `operator<`, `inc` | arithmetic |
| C06 | `HybridTime` packing | mixed-radix arithmetic; `gmtime` itself is outside the model |
| C07 | `Key` | bit fields as div/mod, big-endian image; ids of any kind: `KeyExact.v` |
| C08 | `FORMS`, `uuid2form`, `form2uuid` | finite table by computation, catch-all case by proof |
| C09 | `utf8append`, `ParseUtf8` | per-codepoint decoding lemma, list induction; which texts are kept: `Utf8Canon.v` |
| C10 | `utf16append`, `utf16read`, `ReadString16` (`read_string16`) | arithmetic; bound 2^21 on what the code point automaton gives, by induction with an invariant of its states (`cp_run_bound`); refutations by witness |
| C11 | `encode`/`decode` | bit-accumulator invariant |
| C12 | `utf8esc_append`, `NextCodepoint`, string states of the text automaton | per-codepoint lemma, induction; the reader exactly, on every text, in EscTheorems.v |
| C13 | `ParseInteger`, `int_too_big`, `WriteInt` | decimal positional arithmetic |
| C14 | interpreter of the extracted automaton | invariant over all states by reflection on the table |
| C15 | same | state inspection |
| C16 | `Builder` (`TextModel.v`) on the values of struct `Op`; parser | the builder's output is a text of the grammar of C43 (invariant over open and closed chunks, induction over the calls) |
| C17 | `WriteSpec` + parser | same invariant; the start state has no transition on ':' ; text written before the op is never taken back |
| C18 | `Split` | induction over the buffer |
| C19 | `MergeCursor` heap over abstract cursors | heap invariant, multiset of remaining ops |
| C20 | same | uniqueness of strictly sorted lists |
| C21 | same with the meta order | same |
| C22 | `RGArrayRDT::Merge` | a depth-first listing is determined by its ops (local characterisation); loop invariant: heap = the unread parts of the attached pieces; existence of the union tree by grafting in id order; direct run for the self merge |
| C23 | same | closed form of the bit mask after the loop |
| C24 | `MaxRDT::Merge` | fold invariant; integers of both signs: `MaxSigned.v` |
| C25 | `MasterRDT::Merge` | case analysis |
| C26, C27 | `ScanRGA` with checked indexing (`ScanModel.v`); hiding by layers, ranks and targets on trees (`ScanSpec.v`) | the scan is a bottom-up evaluation of the tree (state settles to the parent's once finished ops are popped); zipper for arbitrary op lists; witnesses |
| C28-C30 | `InMemoryStore` and its iterator as a sorted list of records with positions (`StoreModel.v`), generic in the frame type; text instance `merge_as` | splitting the list at a key; walk invariant: the iterator stands at the start of the unvisited suffix; history induction with C44 for text; witnesses |
| C31 | `Replica::Now`, `See` with the system clock as an arbitrary sequence (`ClockModel.v`) | invariant; a clock once at or past the last timestamp below NEVER never comes back (`stuck`), for every date from 1970 to 2009 (`C31_wrong`) and every such id accepted (`C31_poisoned`); witnesses |
| C32 | `OpMeta` (`MetaModel.v`), histories as trees of dependencies (`MetaSpec.v`) | induction over histories with C33; explicit collisions; C16 for the record |
| C33 | `WriteOpHashable` byte image (`HashModel.v`); SHA-512/256 itself is not modelled | the image is uniquely parsable, atoms carry their type and size; witnesses |
| C34 | `VV` | map lookup |
| C35 | `inc_stack`, its iterator and `skip_span`, generic in the element type, instances UUID and `fsize_t` | abstraction function to lists; `+=` proved between runs, refuted inside one; `IncStackFar.v` (`C35_advance_far`): it never leads back, and leads too far only when the element is inside a run |
| C36 | `JoinedStore` over two in-memory stores | both iterators at the start of their suffixes, the joined key is the lesser; each visited key at most collapses; C44 for text reads |
| C37, C38 | `Commit` with `SaveChain`, `Receive`, `Save`, text mapper writes (`ReplicaModel.v`), over any key-value store; acceptance as a sequence of chains, grounds as reads of the store (`ReplicaSpec.v`) | loop invariant over the ops read so far; inversion of every step; witnesses on a concrete store |
| C39 | `CompareFrames` (`CompareModel.v`), content of a frame (`CompareSpec.v`) | lock-step induction on the ops left of both cursors |
| C40 | text automaton | simulation of the generated `cs = 0; fbreak` code |
| C41, C42 | SHA2 texts and bit prefixes (`hash.hpp`) | bit lists; which hashes have the same hex text: `HashText.v`, `HashExact.v` |
| C43 | grammar `frame_lit` in `TextSpec.v`, interpreter of the extracted automaton | token lemmas over classes of states and bytes checked by computation, induction over the text |
| C44 | `merge_as`/`merge_frames` (`MergeTextModel.v`): open cursors, merge, write | every op appended stands under a cursor of an input; grammar parametrised by how characters are written, so that what is read can be written again; then C19-C22, C43, C16; the builder's data plus the terminator due is bounded by a room per op (`SizeProofs.v`) |
| C45, C46 | `RDTMerge`, `RocksDBStore`, its iterator (`RocksModel.v`); RocksDB by its contract: operands per key, compaction as an arbitrary event | invariant over the history: the frames now held add up to the frames written (C44 for the union family, C25 for logs and last-wins records); more than three pieces of a tree without a compaction of its key (`C45_rga`); iterator as a position in the sorted family; a key is shown iff it and those before it can be read (`C46_shown`) |
| C47 | the commit of C37 with the RocksDB store of C45 as branch (`BranchModel.v`): `CreateBranch`, `Open`, `ReceiveFrame`, compaction as events of a history; what is remembered as an inductive relation over the history (`BranchSpec.v`) | invariant: the newest record under `Key::ZERO` is a readable tip record of the yarn; walk through the creation; the commit's tip as the last stamped op; openings decided by the yarn of that record (`C47_iff`, `C47_barred`); a first chain that See refuses leaves the empty tip record (`C47_never`) |
| C48 | the histories of C47; which chains each frame leaves in the store, as an inductive relation (`DurableSpec.v`) | invariant of one key through the reads, writes and merges of the joined stores inside a commit, the batch, restarts and compactions; order and multiplicity of the chains' ops bound the sizes; instances for logs and for sorted unions |
| C49 | `b_fork`: CreateBranch, then an iteration over the original's records, each read and written into the new branch (`ForkModel.v`) | the loop copies the readable prefix of the records (`copies`); one key's cell in the fork is the first event's record and one copied text; the log and union invariants of C48 for it; for a text (`C49_text`) the copied text is a causal tree of the stored events (C72), and so is the merge of it alone; the answers by C53 on both branches (`C49_answer`); from the first unreadable record on the fork has nothing of the original (`C49_lost`) |
| C50 | `b_name`, `b_names`: WriteName and ReadNames over the branch of C47 (`NamesModel.v`) | an assignment adds one text to the cell of the names' key: the union invariant of C48 goes on; the read is one sorted chunk, and the loop over it keeps the last pair per name |
| C51 | `split_log`, `log_state`, `log_version`: SplitLogIntoChains, ObjectLogToState, GetObjectVersion (`LogModel.v`) | reading is local: a cursor whose buffer is cut at the end of an op reads the same ops up to it (`next_cut`); induction over the ops of the log; the merge of the chains by C44; in a branch (`RecallTheorems.v`) the log is what C48 says, and accepted events refer back |
| C52 | `b_ask`, `b_get`: the query handlers with their response builder (`AnswerModel.v`) over the branch of C47 | the copying loop makes the calls of `replay` (`append_frame_ok`); the builder theorem C16 turns calls into a readable text; what is stored is C48's; erasing the answer gives the receiving of C37 (`erase_*`) |
| C53 | `answer_txt` (`AnswerModel.v`) over the scan of C26 and the reads of C45 | the grammar of frames with marks (`frame_marked`): the parser expands a span op by op with the atom kept (`next_marked`), the builder's marks are `in_runs` (`build_calls_marked`); the loop over cursors and hidden flags spells the text (`weave_ok`); C44's merge gives the state (`causal_marked`); several queries: the answers are built as if the texts had no zeros (`sim_build`: the sizes told to the builder matter only for spans), induction over the cursors of the frame (`loop_replies`) |
| C54 | `write_new`, `stamp_loop`, `txt_write` (`ReplicaModel.v`) in the loop of Receive | the loop makes no store of a frame without events and names (`receive_loop_quiet`, over C37's trace of writes), so Save writes the tip record at most (`save_quiet`); the stamping loop gets through marked cursors (`stamp_loop_ok`); induction over the run; several texts in a frame by induction over the ops, with the clock asked twice for each (`write_loop`, `last_stamp` in `WriteMore.v`); the refusal after it from the tip the loop ends with (`receive_loop_tip`) and Save's comparison (`save_inv`) |
| C55 | `host`, `h_step`: a replica with its clock, active store and stores, the calls of its life cycle over the branch model (`HostModel.v`); what concerns a branch as the relation `parts` (`HostSpec.v`) | each call changes the list of stores at one place; the steps of a branch do not depend on the active store once it has a last event (`receive_frame_any`); induction over the run |
| C56 | the same; the abstract life cycle `goes` | invariant `sound`: every store has a last event on record, of its yarn, before NEVER, not after the clock; the clock only goes up and by at most one tick per event (`receive_frame_up`) |
| C57, C58 | the same | the invariant of C56; the active store as a fold over the calls |
| C59 | `lobj`, `obj_new`, `obj_update`, `obj_write`, the getters (`LwwObjModel.v`); `field`, `last_sets`, `tells` (`LwwObjSpec.v`) | the loop visits the ops of the text and leaves their entries in reverse order; a state in id order has the newest op last; C48's `state_story` for histories |
| C60 | `turn`, `in_turn`, `calm`, `apart`, `stored_of` (`YarnSpec.v`); the branch of C47 and C48 | invariant `good` of the stored chains (`YarnProofs.v`): in turn, each chain linked, each op's object its chain's; `sees`: what a lookup through the branch and the open transaction finds. `YarnJoin.v` proves `sees` of the joined stores inside a frame, `YarnMerge.v` that joining two logs of a type merged by ids keeps the events and each part's order |
| C61 | `belongs` (`YarnSpec.v`) | by `good` the chains under an object's key are those of its events; C48's `log_kept` and `state_story` for what a read gives |
| C62 | as C61 | the state is the sorted list of the events of the object, which is unique; `keeps_all`: events that come once are all stored |
| C63 | `base64_case`; spec `kind` by the characters | induction over the digits of a word, `CliNames.v` |
| C64 | `CliModel.v`: `cli` is a process: it opens the stores left by the last one, runs one command and leaves the stores; `init`, compactions between | `cli_out`: what each command does to the stores of the open replica (`CliProofs.v`), from the lemmas of C55, C56; `effect` says it of the database |
| C65 | `session`, `last_given`, `spaced` (`CliSpec.v`) | `CliHistory.v`: the history of assignments `hist` beside the state of the record of names (C48's `state_at`), kept by every command and compaction; C50's `names_read`, `newest` |
| C66 | `cmd_list`, `cmd_named`; the walk over a map is a parameter `order` | a walk is a permutation of the entries (`CliListing.v`); C63, C65; on a word, also one that means no store: `CliNamedOn.v` |
| C67 | as C64; recall: `RecallCommand.v`, `metadata_version` (the log of C51 read from the metadata) | case analysis with the active store NIL and no branch of the yarn 0 (`world_ok`), which C64 keeps; hop without on: `CliHop.v` |
| C68 | `SplitTests` as a loop over the cursor with the builder carried on across `Release` (`ScriptModel.split_tests`) | the loop as a function of the ops visited; each part is a build from a released builder whose last op is the previous part's last one (`spent`), shown equal to a build from scratch up to the reference of the first op; parts of a list are unique (induction) |
| C69 | `CommandTest` and `test` of `RunCommands` over the replica of `HostModel`, with responses in a builder (`test_loop`, `command_test`, `test`) | induction on the parts with the relation `plays`; the comparison by C39, the parts by C68; `ScriptStates.v`: frames of events are not answered, and a branch not opened since it was made stores all of them, then as C48 and C52 |
| C70 | `Range` and `Slice` of `ron/slice.hpp` over an array of bytes, 32-bit offsets that wrap (`SliceModel.v`) | relation `shows` between a slice and bytes; `moved`: the cut between the bytes passed and left; induction on the moves, the bytes compared and hashed |
| C71 | `str` (`s_str`): the C string at the buffer, then a substring | case analysis on where the first zero byte is |
| C72 | the branch of C47-C48, text objects: the cell of an RGA key as pieces that are trees (`cell_trees`) | induction over the life of the branch: each piece is a causal tree, the pieces together have the stored events; partial and full merges keep this (C22, C44); at the end the tree is unique, and C53 gives the text; `C72_recovers`: what is known of the stored chains holds at every step of the life, so each piece hangs on one stored before it, and C83_recovers applies; `C72_agree_recovered`: both trees so reached have the stored events, and a causal tree of given events is unique; `C72_text_recovered`: the same for stored chains with spans, the order of the pieces being a hypothesis (`each_hangs`), and C53 for the tree reached |
| C73 | `Status` (`stat`): the UUID and the comment, the constants as numbers | computation over the 25 constants; C01 and C02 for what is sent and received; the tab cannot be in a word; what is printed alike: `StatusExact.v` |
| C74 | `InitModel.v`: `CreateReplica` over the default family of a database; the directory: init, commands, compactions, inits | `create_over_inv` (the chain of C38 is refused or accepted whole); invariant `meta_shape`: yarn 0 has its first event in record and log, so that a second one is refused |
| C75 | `DumpSpec.v`: the names of the forms and `shows`, the lines a store gives | `dump_from` (induction over the sorted keys behind an iterator, C46); `key_named` (the key splits back into form and id); forms whose merge never fails by cases on the reducers; the metadata by the invariant of C74; on a word that means no store: `CliNamedOn.v` |
| C76 | `FamilyModel.v`: families by name, `OpenAll`, `Create`, `Drop` | round trip of C01 and the invariant that the ids of the stores of HostModel are distinct and are NIL or of branches; so HostModel may have families by id; which ids come back: `UuidExact.v` |
| C77 | `MapModel.v`: `uuid2map`, `map2uuid` with the constants as in the source | induction over the cases of the switch, whose bytes are distinct; the words by computation |
| C78 | `GcModel.v`: `gc`, `merge_gc`, `meta_gc`; keys by the range in the origin word, asserts as `Aborted` | the two loops by induction over the cursors a frame visits (C43), the map by its last write; the output by C16, MergeGC by C44 |
| C79 | `OpModel.v`: `op_made` with its string buffer, `op_next`, the writing and reading loops, `amend_string`; what ParseUtf8 pushes before it fails | each atom of an op stands for a value (a stretch of the string buffer); the pushes by cases on the characters of UTF-8; the text by C16 |
| C80 | `ReserModel.v`: `reserialize`, the cursors as they are passed | the cursors a frame visits (C43, C51), the output by C16; equality by C39; the terminators: `ReserTerms.v` |
| C81 | the models of C59 and C62; `newest_write` over the events that `belongs` to the object | the state of the object has exactly its events (C61), the index over it shows the newest (C59); both are functions of the set of events |
| C82 | `HashFrameModel.v`: the maps of hashes and tips, the calls of the builder | invariant of the loop over all ops; the output by C16; hash records by C41 |
| C83 | nothing new: plans of merges over the model of the merge operator (`RocksModel.v`, `MergeModel.v`) | induction over plans with C22 at each step; uniqueness of the causal tree; for the order of first ops, the least piece left hangs on what is merged; in the store (`C83_recovers`) one compaction per piece, by induction over the operands, each step a merge of the tree so far with a piece that hangs on it; `C83_never_lost`: that each piece hangs on one before it is an invariant of all writes and compactions |
| C84 | `EscapeModel.v`: escape, unescape with the memory around the slice, TextFrame::string | every slice is cut into pieces of one or two bytes; induction over them; agreement with the code point writer of C12 |

## Trusted base

* Coq 8.16.1's kernel (and its VM, used by `vm_compute`), `coqc`. `Print Assumptions` is run for every theorem named in
  `MANIFEST.json` and answers "Closed under the global context" for each: no axiom, neither of the standard library nor of our own.
* That the Gallina functions say what the cited C++ lines do. The automaton of the text parser is extracted by
  `tools/gen_text_table.py`, which is trusted to transcribe the goto code.
* C++ semantics as assumed by the models: 64-bit two's complement, bytes are 8 bits, `assert` active (no NDEBUG), allocation succeeds,
  `std::string`, `std::vector`, `std::sort`, `std::unordered_map` and `std::multimap`-like containers behave as documented.
* What is left open by theorems quantified over it (Section variables, not axioms): SHA-512/256 of an image (`sha`), `strtod`
  (`fbits`: the 64-bit word of a float text), the system clock, the behaviour of a branch's store in C37/C38, the random yarn and the files of a command, the order in which an
  `unordered_map` is walked (C64-C67; a permutation in C66 and C67_on).
* What is replaced by its contract: `gmtime` (a broken-down time is the input), `btree_multimap` (a sorted list, equal keys in order of
  insertion), RocksDB (see C45; C74: a database is not opened with less than all its families), libsodium and the text diff library (not called in the modelled paths).

### Modelled

| source | in |
|---|---|
| `ron/uuid.hpp`, `uuid.cc`, `uuid-parser.cc` | `UuidModel.v` |
| `ron/form.hpp`, `db/key.hpp`, `key.cc` | `KeyModel.v` |
| `ron/encdec.hpp`, `cp-parser.cc` (UTF-8, UTF-16, base 2^k, escapes, integers), `Split` | `CodecModel.v` |
| `ron/text.hpp`, `text.cc`, `text-parser.cc`, `text-builder.cc` (cursor, builder, values) | `TextTable.v`, `TextModel.v` |
| `ron/op.hpp` (struct Op, Amend), `ron/frames.hpp` ReadString, ReadString16 on an Op | `OpModel.v` |
| `ron/frames.hpp`: `CompareFrames`, `AppendAll`, `AppendFrame`, `ReadString`, `ReadString16` | `CompareModel.v`, `AnswerModel.v`, `Utf16Theorems.v` |
| `ron/hash.hpp`, `ron/opmeta.hpp` | `HashModel.v`, `MetaModel.v` |
| `ron/slice.hpp` | `SliceModel.v` |
| `ron/status.hpp`, `ron/status.cc` | `StatusModel.v` |
| `ron/vv.hpp`, `ron/inc_stack.hpp` | `ClockModel.v`, `IncStackModel.v` |
| `rdt/merge.hpp`, `rdt.hpp` and all merge rules; `ScanRGA` of `rga.hpp`; object log replay | `MergeModel.v`, `MergeTextModel.v`, `ScanModel.v`, `LogModel.v` |
| `db/mem_store.hpp`, `joined_store.hpp`, `rocks_store.cc` (reads, writes, iteration) | `StoreModel.v`, `RocksModel.v` |
| `rdt/lww_obj.hpp` | `LwwObjModel.v` |
| `db/replica.cc`, `replica.hpp` (clock, receiving frames), `db/map/txt.hpp` | `ClockModel.v`, `ReplicaModel.v`, `BranchModel.v`, `ForkModel.v`, `NamesModel.v`, `AnswerModel.v`, `HostModel.v` |
| `db/main.cc`: the commands create, fork, drop, hop, on, list, name, named, write, get, recall, new, dump, init; `base64_case` of `ron/uuid.cc` | `CliModel.v` |
| `db/main.cc` `CommandInit` and `Replica::CreateReplica` in the directory of a replica | `InitModel.v` |
| `db/rocks_store.cc` `Create`, `Drop`, `OpenAll` (the names of families) | `FamilyModel.v` |
| `db/const.hpp` | `MapModel.v` |
| `ron/frames.hpp` Reserialize | `ReserModel.v` |
| `db/main.cc` CommandHashFrame (called by no command); `hash_op` of `ron/hash.hpp` | `HashFrameModel.v` |
| `escape`, `WriteString` of `ron/text-builder.cc`, `unescape`, `string` of `ron/text.cc` and `ron/text.hpp` (called by nothing) | `EscapeModel.v` |
| `rdt/lww.hpp` GC and MergeGC, `rdt/meta.hpp` GC | `GcModel.v` |
| `db/main.cc`: `SplitTests`, `CommandTest` and the command test; `Builder::empty` | `ScriptModel.v` |

### Not modelled

From `db/main.cc` the commands help, version, repair, `CommandQuery` (not called) and the
texts of errors; `db/fs.hpp`, the mappers other than `txt`, `db/merge_ops.hpp`,
`ron/string-parser.cc` (not built), the GC functions that only return a status (logs, texts) or cannot be
instantiated (chains, matrices), failures, repairing and dropping of RocksDB databases, the trace
output, threads (the code starts none), float arithmetic, memory exhaustion.
