#!/usr/bin/env python3
"""Writes /verif/properties.jsonl (one JSON object per line)."""
import json
P = []
def p(id, title, statement, quantifier, why, *anchors):
    P.append(dict(id=id, title=title, statement=statement, quantifier=quantifier,
                  why_tests_cant=why, anchors=list(anchors)))

p("C01", "UUID text form round-trips",
  "Printing any UUID whose origin word uses only the two version flag bits and parsing the printed string gives back the identical UUID (value, variety, version and origin). No other UUID comes back, and no other can be written as text at all.",
  "every pair of 64-bit words whose origin flag nibble is 0..3",
  "2^126 UUIDs; the variable-length base64 form drops trailing zero digits, so corner cases depend on digit positions no finite sample covers",
  "ron/uuid.hpp Uuid, Word", "ron/uuid.cc write_base64", "ron/uuid-parser.cc Uuid::Uuid(Slice)")
p("C02", "UUID parser accepts exactly its grammar",
  "Parsing an arbitrary byte string as a UUID yields an error value unless the string is [hexdigit '/'] word [version-char word] with words of at most 10 base64 digits (plus the degenerate forms: empty string, missing word after '/' or after the version char); on acceptance the value, variety, version and origin are the left-aligned 6-bit-per-digit readings of the parts.",
  "every finite byte string",
  "input strings are unbounded and adversarial; a fuzzing run only samples them",
  "ron/uuid-parser.cc Uuid::Uuid(Slice)", "ragel/uuid-grammar.rl")
p("C03", "UUID text is canonical",
  "Reprinting the UUID obtained from any accepted string and parsing it again gives the same UUID, and two UUIDs with clear top origin flags print the same text only if they are equal.",
  "every accepted string; every pair of UUIDs with origin flags 0..3",
  "injectivity is a statement about all pairs of values",
  "ron/uuid.hpp Uuid::str", "ron/uuid.cc write_base64")
p("C04", "Textual and numeric word order agree",
  "For two 60-bit words, the byte-wise lexicographic order of their base64 texts is the numeric order of the words.",
  "every pair of 60-bit words",
  "trailing-zero trimming makes texts of different lengths; the order must hold for every pair",
  "ron/const.hpp BASE_PUNCT", "ron/uuid.cc Word::write_base64")
p("C05", "UUID comparison is a strict total order compatible with increment",
  "operator< on UUIDs is irreflexive, transitive and total, is value-major and origin-minor, and id.inc() is the least UUID with the same origin above id, for every id except those whose value word is all ones (where it wraps to zero).",
  "every triple of UUIDs",
  "order laws quantify over all triples",
  "ron/uuid.hpp Uuid::operator<, inc")
p("C06", "Calendar timestamps encode monotonically and injectively",
  "Encoding a calendar time (year 2010..., month, day, hour, minute, second, 100ns units) into a 60-bit word is strictly monotone in the lexicographic order of the calendar fields, and the fields can be recovered.",
  "every pair of in-range calendar tuples",
  "all pairs of timestamps over 340 years at 100ns resolution",
  "ron/uuid.cc HybridTime", "ron/uuid.hpp")
p("C07", "Database keys lose nothing and sort by form, then origin, then value",
  "Building a store key from an event id and a form and reading them back is the identity on time-stamped ids; distinct (id, form) pairs get distinct keys; key order, and the byte order of its 16-byte big-endian image, is lexicographic in (form, origin, value). For ids of any kind: two share a key if and only if the form and the 60 bits of both words are the same, and what is read back is the event with those bits, which is the id itself only for events.",
  "every time-versioned UUID with flag-free words, every form byte",
  "bit-packing across two words with a shared nibble; all 2^128 combinations matter",
  "db/key.hpp Key")
p("C08", "Form registry is a bijection on the known forms",
  "Converting a known form byte to its UUID and back is the identity; the UUID of a form is the parse of its documented name; an unknown UUID maps to the zero form and the error UUID to the error form.",
  "every form byte 0..255 and every UUID",
  "the inverse direction ranges over all UUIDs",
  "ron/form.hpp FORMS, uuid2form, form2uuid")
p("C09", "UTF-8 encoder and decoders are inverse",
  "Encoding any list of code points below 2^21 to UTF-8 and decoding it returns the same list; each code point gets the shortest form; the single-character reader gives the character a string begins with and consumes exactly its bytes, also if it is overlong, and on any other string consumes the bytes its first byte announces, or what is there of them (a byte of 128..191 is taken for the first of two, the bytes that follow are not checked; a byte from 248 on and a character cut short give 0); the decoder accepts exactly the sequences of one- to four-byte UTF-8 patterns (overlong forms included, so canonical UTF-8 is not enforced) and rejects a truncated tail. A text that is decoded and encoded again never gets longer, and is the same if and only if it is the shortest text for its code points.",
  "every list of code points below 2^21; every byte string",
  "unbounded strings; multi-byte boundaries at every position",
  "ron/encdec.hpp utf8append", "ron/utf8-parser.cc ParseUtf8")
p("C10", "UTF-16 conversion is faithful on the basic multilingual plane only",
  "Every list of code points below 2^21 survives conversion to the library's 16-bit units and back, but the units are standard UTF-16 exactly for the scalars below U+10000 other than U+D7FF; all supplementary-plane characters get non-standard units. A string atom of a frame read as UTF-16 gives units that convert back to the very code points it has as UTF-8, whatever it contains, and fails exactly if the string cannot be read; a character of a span is the exception, it reads as an empty string without any error.",
  "every list of code points below 2^21; every Unicode scalar value; every range of every buffer read as a string",
  "1.1 million scalars times context",
  "ron/encdec.hpp utf16append, utf16read", "ron/frames.hpp:139-147 ReadString16")
p("C11", "Base-2^k byte armouring round-trips",
  "Encoding bytes into hex or base64 digits gives the bits of the bytes, zero-padded to whole digits, and decoding all the digits gives the bytes back, with one extra zero byte exactly when base64 padding was added; decoding rejects characters outside the alphabet. The alphabets are 0-9A-Z_a-z~ and 0-9a-f, hex capitals are read as well. Decoding base64 with the original bit length instead loses the last partial digit.",
  "every byte string, every digit width up to 8 bits",
  "all lengths and alignments",
  "ron/encdec.hpp encode, decode")
p("C12", "String escaping is reversible",
  "A string value appended to a frame builder is read back by the frame parser as the same code points if and only if it contains neither NUL nor form feed. On any text, one step of the reader (NextCodepoint) answers with a character before the end if and only if the text begins with that character, plain or escaped, followed by a byte that can start another; it passes the whole text if and only if that is a character or the beginning of one; anything else, such as an unescaped quote or line end, is an error.",
  "every list of code points below 2^21",
  "unbounded strings with every mix of escapes and multi-byte characters",
  "ron/encdec.hpp utf8esc_append", "ron/cp-parser.cc NextCodepoint", "ron/text-parser.cc")
p("C13", "Integer atoms round-trip and overflow is caught",
  "Every decimal literal the parser accepts denotes a value within the signed 64-bit range and is read as that value. Every integer from -922337203685477580 up to 2^63-1 is printed so that it is accepted and reads back as the same number; those between -10^18 (exclusive) and -922337203685477580 are printed but refused by the parser; those at or below -10^18 overrun the formatter's buffer.",
  "every signed 64-bit integer; every decimal literal of any length",
  "literals are unbounded; boundary cases have 2^64 neighbours",
  "ron/text.cc ParseInteger, int_too_big", "ron/text-builder.cc WriteInt")
p("C14", "Parsing is memory safe and always makes progress",
  "Advancing a cursor over an arbitrary byte buffer never reads outside it and trips an assertion only on a buffer with more than 10 consecutive base64 digits; every atom it reports lies inside the consumed part of the buffer; every call either reports the end or an error, or consumes input or shortens the pending span, so a scan terminates.",
  "every byte buffer, every number of calls",
  "adversarial input of any length; fuzzing cannot exclude the remaining inputs",
  "ron/text-parser.cc TextFrame::Cursor::Next", "ron/text.hpp Cursor")
p("C15", "End and error states of a cursor are sticky",
  "Once a cursor reported the end of frame or a syntax error, it never becomes valid again; after the end of frame it never yields an op, after an error it yields at most the repetitions of a span that was pending at the error, and then the same answer recurs forever.",
  "every buffer and every number of further calls",
  "histories of calls of any length",
  "ron/text-parser.cc TextFrame::Cursor::Next", "ron/text.hpp valid")
p("C16", "Built frames parse back to the ops that were appended",
  "Appending ops to a fresh frame builder and ending chunks in any order, then scanning the produced frame, gives the same ids, references, values and terminators in the same order. The conditions are exactly spelled out: an op whose id is its predecessor's plus one also references it; such an op with the same UUID or also a single character as its value does not come right after the end of a chunk, and the first character of a run of them is plain ASCII; UUID values are not spelled like floats; integers and strings are in the printable range.",
  "every finite sequence of append and end-of-chunk calls with UUID, integer, float-text and string values",
  "unbounded op sequences; the delta compression makes every op's text depend on its predecessor",
  "ron/text.hpp Builder", "ron/text-builder.cc", "ron/text-parser.cc")
p("C17", "A sequential id with a non-sequential reference is not representable by the builder",
  "The frame the builder produces for an op whose id continues its predecessor but whose reference does not is rejected by the parser at exactly that op: all ops before it are read, then a syntax error is reported, whatever is appended afterwards.",
  "every call sequence with such an op at any position",
  "the defect depends on the relation between two consecutive ops",
  "ron/text.hpp Builder::WriteSpec", "ragel/text-grammar.rl SPEC")
p("C18", "Splitting a stream into frames loses nothing",
  "Splitting a buffer yields, in order, frames that each contain the frame terminator only at their very end (the last one may lack it), and the buffer is the concatenation of the frames with white space between them; an empty buffer gives one empty frame.",
  "every byte buffer",
  "unbounded input; terminators at any position",
  "ron/text.cc TextFrame::Split")
p("C19", "State merge of id-ordered replicas is the sorted union",
  "Merging any number of id-sorted op sequences by the last-write-wins, matrix or chain rule produces exactly the union of the ops, each id once, in increasing id order, with a representative op taken from one of the inputs.",
  "every number of inputs, every input length",
  "a heap over arbitrarily many inputs; unbounded data",
  "rdt/merge.hpp MergeCursor", "rdt/lww.hpp", "rdt/mx.hpp", "rdt/chain.hpp")
p("C20", "Id-ordered merge converges",
  "If ids identify ops, merging is insensitive to the order of the inputs, to repeated inputs and to the grouping of merges (merging partial merges), so replicas that saw the same updates in any order hold the same state.",
  "every permutation, duplication and grouping of every list of inputs",
  "all interleavings of arbitrarily many replicas",
  "rdt/merge.hpp MergeCursor", "rdt/rdt.hpp MasterRDT::Merge")
p("C21", "Meta merge keeps the record with the greatest reference per id",
  "Merging metadata records sorted by id (and by decreasing reference within an id) yields each id once, carrying the largest reference seen for it in any input.",
  "every number of inputs, every input length",
  "unbounded inputs with conflicting records",
  "rdt/meta.hpp MetaRDT")
p("C22", "Causal-tree merge is the depth-first order of the union tree",
  "Merging up to three frames that are depth-first listings (children newest first) of causal trees with no op in common succeeds exactly when every piece but the one with the oldest root references an op of a piece, and then lists the one causal tree made of all the ops, in whatever order the inputs come. Pieces that share ops are not covered: merging a listing of two or more ops with itself reports success and lists everything twice.",
  "every one to three causal trees with disjoint ids",
  "unbounded trees and interleavings",
  "rdt/rga.hpp RGArrayRDT::Merge")
p("C23", "Causal-tree merge reports unattachable pieces",
  "For any op sequences as inputs the merge ends; it returns success exactly when the first op of every input has the least id or references an op of the output, and refuses more than three inputs without output.",
  "every list of inputs",
  "reachability over arbitrary inputs",
  "rdt/rga.hpp RGArrayRDT::Merge, MergeBig")
p("C24", "Max merge returns the greatest value",
  "Merging max-register frames outputs the header of the first input and one op of the inputs whose value is not below the value of any input op in the order of atoms as 128-bit unsigned words; for non-negative integers that is the greatest value. Negative integers count as greater than positive ones: with any among 64-bit integers the greatest of the negative ones comes out (C24_signed). And a register that is only a header yields an op that is not in the input.",
  "every list of inputs",
  "unbounded inputs",
  "rdt/max.hpp MaxRDT")
p("C25", "Log merge is concatenation and unknown forms are refused or overwritten",
  "Merging by the log rule appends the inputs' ops in order with their terminators; merging by the zero or error form keeps only the last input; forms without a merge rule and inputs of different forms are refused without output.",
  "every list of inputs, every form byte",
  "all inputs and forms",
  "rdt/rdt.hpp MasterRDT::Merge", "rdt/log.hpp")
p("C26", "Tombstone scan hides exactly the removed elements",
  "Scanning a frame that lists a causal tree returns one flag per op: hidden are the root, everything that is not an element in place (removals, undos, ops out of layer order and all below them), and the elements a removal works on that is not cancelled, where the k-th removal in a row works on the k-th element up and the k-th undo in a row cancels the k-th removal up unless that is the first of its row (the exception is a defect: a single removal cannot be undone). With distinct ids the scan succeeds only on listings of causal trees.",
  "every causal-tree frame, every frame with distinct ids",
  "unbounded nesting of removals and undos",
  "rdt/rga.hpp ScanRGA")
p("C27", "When the tombstone scan writes out of bounds",
  "On a frame listing a causal tree the scan writes outside its flag array exactly when an active removal or an undo stands so deep in its row that it has nothing to work on; on any frame with distinct ids such a tree at the start of the frame is necessary. Three removals in a row under the first element are such a frame. The scan's assertions never fail.",
  "every frame",
  "a crashing input must be constructed, tests pass on the usual ones",
  "rdt/rga.hpp ScanRGA")
p("C28", "In-memory store returns the merge of everything written under a key",
  "A write appends a frame to its key and to no other; Key::END is refused, and a batch is cut there. A read returns nothing, the key's only frame or the merge of its frames by the key's form; a successful merge replaces the frames, other keys are not affected and the next read returns the same frame. Open adds the frame that names the store at the zero key and an empty frame at Key::END, and nothing else. For text frames under a key of form lww, mx, yarn or meta (ops in id order, writable together, their room below 4 GB): after every history of writes, batches, reads and iterator walks over the whole store, a read returns a frame with exactly the ops written under the key.",
  "every store content; every history of writes, batches, reads and walks",
  "unbounded histories; reads and walks collapse records in place",
  "db/mem_store.hpp InMemoryStore::Write, Read, Merge, Open")
p("C29", "Store iteration visits each key once in order",
  "A new iterator, SeekTo(k), then Next, with or without looking at the values: visits the stored keys from k on in strictly increasing order, each once, skips none and ends at Key::END; the value of a key is its only frame or the merge of its frames. The store keeps its keys; at most the frames of keys looked at are replaced by their merge; a failed merge changes nothing. SeekTo lands on the least key not below k; with prev, in an opened store, on the greatest key not above k. Excluded exactly because false: reusing an iterator after SeekTo past the last record of a store that was not opened (reads the end of the map), SeekTo to another key after value() (Next overwrites the records there), value() after SeekTo with prev (shows one of several records).",
  "every store content, key and pattern of looked-at values",
  "unbounded contents; the iterator mutates the store while walking",
  "db/mem_store.hpp InMemoryStore::Iterator")
p("C30", "A failed merge destroys the stored records",
  "A read of a key with two or more records whose merge fails returns the status of the merge, deletes all records and stores whatever the caller's frame held; the next read returns that with OK. This is so for every two text records under a form without a merge rule and for every four under rga.",
  "every store with such records",
  "needs a history that drives the merge into refusal; then any content",
  "db/mem_store.hpp InMemoryStore::Read")
p("C31", "Local clock is strictly monotone",
  "Starting below NEVER, every timestamp a replica issues is a time event of the asked (else the active) yarn, above every timestamp it issued before and every id it accepted, and not below the system clock's reading; it never goes back whatever the system clock does. See refuses non-events and timestamps from NEVER on, changing nothing. Excluded because false: after seeing the last timestamp below NEVER, Now issues NEVER itself; a system clock before 2010 wraps to a timestamp beyond NEVER; in both cases no other replica accepts that timestamp or any the replica issues later, even with its system clock set right.",
  "every sequence of at most 2^54 uses with readings of the years 2010-2345 and observed ids",
  "arbitrary clock behaviour, including going backwards",
  "db/replica.hpp Now, See", "db/replica.cc")
p("C32", "Op metadata commits to the whole causal history",
  "For every history of events (each with its yarn predecessor; creations reference names, edits the event they depend on): the metadata of the last event gives its id, the id and form of its object's creation, its predecessor's timestamp and the chain, which starts at the nearest event that does not reference its predecessor. An op extends a chain exactly when it is a time event of the same origin, later than and referencing the last event. Two histories whose last events have equal hashes consist of the same ids, references and values with the same dependencies, or two different byte strings hashed on the way have the same SHA-512/256, or one hashes to zero. A saved record gives id, object and form back, unless an id looks like a number; it never gives the hash back, and hashes continued from a reloaded record differ (up to collisions).",
  "every event history, of any size and branching",
  "unbounded histories; collision freedom is a statement about all pairs",
  "ron/opmeta.hpp OpMeta", "ron/hash.hpp OpMerkleHash")
p("C33", "Hashed op image determines the op",
  "Two delivered ops with equal hashed byte streams have equal ids, references, previous hashes, reference hashes and values (UUIDs, integers, float bits, characters of readable strings). Equal ops give equal byte streams except exactly: a character of a span differs from the same character standing alone, and a literal that ends at byte 2^28 of its buffer or later differs from the same literal before it.",
  "every pair of ops of any frames below 2^30 bytes",
  "collision freedom is a statement about all pairs",
  "ron/hash.hpp WriteOpHashable")
p("C34", "Version vector coverage",
  "A version vector covers an event iff its entry for the event's origin is not below the event's timestamp; an absent origin covers only timestamp zero. A vector whose entries are not below those of another covers whatever the other covers; covering an event covers all earlier ones of its origin.",
  "every vector and event",
  "all vectors",
  "ron/vv.hpp")
p("C35", "Incremental stack behaves as a plain vector",
  "Any sequence of fewer than 2^32 pushes and any pops on the span-compressed stack of UUIDs or positions gives the same size, front, back and iteration sequence as on a plain vector, aborts exactly on a pop of an empty stack, and skip_span walks the same sequence in runs; the iterator's += n from the beginning leads to element n when that element starts a run (inside a run it does not: it jumps by runs). It never leads to an element before the n-th, and where it leads past it, the n-th element is inside a run.",
  "every sequence of push and pop operations",
  "unbounded histories and value patterns",
  "ron/inc_stack.hpp")
p("C36", "Merged view of two stores",
  "A walk of the joined store from k visits the union of both key sets from k on in increasing order, each once; the value of a key in one store is that store's value, the value of a key in both is the merge of the two values or an error frame; neither store changes but for collapsing the frames of keys looked at. A read returns the other store's value when one is empty, else the merge. A commit's read is OK only if the read of the branch and that of the commit's own records are. For text frames whose objects' headers are in both stores, a read of an lww, mx, yarn or meta key returns the union of the ops of both stores. False and excluded: Next after SeekTo with prev (goes backwards), objects without the header (merged as if they had no form).",
  "every pair of stores, key and pattern of looked-at values",
  "unbounded contents and interleavings",
  "db/joined_store.hpp JoinedStore")
p("C37", "A received frame is applied whole or not at all",
  "If a replica accepts a frame, its stamped events (ids that are times with an author, not queries) are among the ops of a sequence of chains made of ops of the frame in its order (an op can end a chain and start the next one), the records of the chains are what is written, and they reach the branch's store in one batch together with a tip record that is later than the old tip and of its yarn; without a new tip nothing is written. If the frame is rejected, the branch's store only sees reads, a refused batch, and the names given by naming ops of the frame; so with a store that applies a batch whole or not at all and is not changed by reads, a rejected frame without naming ops leaves the store as it was. Names survive a rejection; unstamped events and the names after them are dropped from an accepted frame; a syntax error, or a check (an annotation of the event, such as its hash), right after an event or after comments that follow it makes the whole frame rejected, whatever the check says; a query that directly follows an event of its yarn and references it is stored as an event; a malformed rest after a query does not prevent acceptance.",
  "every frame (well formed or not), store contents, clock and tip; any store",
  "failure at every op position, in every state of the store",
  "db/replica.cc Receive, SaveChain, WriteNewEvents, WriteName, Save", "db/replica.hpp ReceiveFrame, Commit")
p("C38", "Events are accepted only on top of what they depend on",
  "Each stamped event of an accepted frame references an earlier event, or a type. It either directly follows another event of the frame in the same yarn, which it references, or heads a chain. A chain is accepted only if it is the first of its yarn and no event of that yarn is found, or if it is later than the last event of its yarn found in the store and references that event, or references another event found in the store (whose object and type it takes), or creates an object of a known type. The clock is then not behind the last event of the chain. The converse fails: events that are accepted in two frames can be rejected in one; an event can pose as chain metadata and block its yarn.",
  "every store contents and frame; any store",
  "all histories of a store",
  "db/replica.cc SaveChain, SaveChainlet, FindOpMeta, FindYarnTipMeta, FindChainHeadMeta, CheckEventSanity", "ron/op.hpp OpMeta")
p("C39", "Frame comparison tells whether frames have the same ops",
  "Comparing two frames reports success exactly if, comments aside, they have the same ops in the same order: ids, references and values, strings by their characters, floats by IEEE equality; terminators, white space, abbreviation and spans do not matter. So it is symmetric and transitive, and reflexive unless an op has a NaN. A rest after a syntax error does not count; a frame without any op only equals another one that ends in the same way. Cursors that were not moved to the first op always compare as equal.",
  "every pair and triple of frames whose strings can be decoded, malformed ones included",
  "all triples of frames",
  "ron/frames.hpp CompareFrames, CompareWithCursors, CompareOps")
p("C40", "Over-large literals end the frame silently",
  "A frame with an integer literal beyond the signed 64-bit range directly followed by a terminator is reported as ended, without an error: the ops before it are delivered, that op and the rest of the frame are not. Followed by white space instead, the literal is reported as a syntax error.",
  "every frame with such an op, any ops before it, any bytes after it",
  "requires an adversarial literal at any position",
  "ron/text-parser.cc end_int action")
p("C41", "Hash texts are printed faithfully but never parsed",
  "The base64 text of a full 256-bit hash has 43 characters, passes the validity check and contains all bits of the hash. The hex text has two digits for every byte known as a whole, from which these bytes can be read back; so two hashes have the same hex text if and only if their known whole bytes are the same, full hashes only if they are equal, and hashes of the same number of whole bytes if and only if they match; the known bits past the last whole byte of an abbreviated hash are not printed. Parsing a hash text of admissible length, valid or not, always yields an all-zero hash.",
  "every 256-bit hash; every byte string of admissible length",
  "2^256 hashes; a test of one round trip either passes by comparing parsed hashes with each other or is absent",
  "ron/hash.hpp SHA2::hex, base64, ParseHex, ParseBase64, valid")
p("C42", "Abbreviated hashes match on their common known prefix",
  "Two possibly abbreviated hashes match iff their bits agree on the shorter of the two known prefixes (to the bit); equality compares all 256 stored bits and ignores the known lengths.",
  "every pair of hashes and of known lengths up to 256 bits",
  "all pairs and prefix lengths, including those not on a byte border",
  "ron/hash.hpp SHA2::matches, operator==")
p("C43", "The parser implements the frame grammar",
  "Every text of the frame grammar (white space, abbreviated specifiers, values of all kinds, counted and character spans, four terminators, optional full stop) is read as exactly the ops it denotes, with omitted ids and references filled in from the previous op, and then the end of the frame is reported.",
  "every text of the grammar, of any length below 2^32",
  "unbounded texts with every mix of tokens, white space and spans",
  "ron/text-parser.cc TextFrame::Cursor::Next", "ragel/text-grammar.rl")
p("C44", "Merging text frames gives text frames",
  "Merging text frames writes a text frame that reads back as the merged ops, and is no longer than what these ops need, however long the texts they come from. For the last-write-wins family (lww, mx, yarn, meta) these are exactly the ops of the inputs, each once, in increasing id order, as one chunk, and neither order, repetition nor grouping of the merges matters; for causal trees they are the union tree in depth-first order. This holds for any texts of the grammar whose plain characters are written as themselves and whose ops can be written together (an id right after another op's only with a reference to it; a run of characters continues a plain character only). Otherwise it fails: a log merge of a character span destroys the characters, and a character written with an escape alters the one that follows.",
  "every list of such frames (of at most three causal pieces), every order and grouping",
  "unbounded texts; the reader, the merge and the writer have to agree on every representation of a value",
  "rdt/rdt.hpp MergeFrames, MergeCursors", "db/mem_store.hpp InMemoryStore::Merge", "ron/text.hpp TextFrame::Builder::AppendOp")
p("C45", "RocksDB reads do not depend on compaction",
  "In the RocksDB store, however the writes and batches under a key are interleaved with flushes and compactions of any of its merge operands, a read returns for the last-write-wins family (lww, mx, yarn, meta) exactly the ops written, each once, in id order, the same as the in-memory store given the same writes; for logs the ops in the order written; for zero and error records the last frame that has ops; and for a form without a merge rule a DB_FAIL, even after a single write, with nothing lost. Not so for causal trees (four or more operands that have ops cannot be read unless a compaction of some of them came in time; none is lost by that), nor for logs with character runs.",
  "every history of writes, batches and compactions of any keys, every choice of the operands compacted",
  "when and what RocksDB compacts cannot be controlled by a test; histories are unbounded",
  "db/rocks_store.cc RDTMerge::FullMergeV2, PartialMergeMulti, RocksDBStore::Write, Read", "rdt/rdt.hpp MasterRDT::Merge")
p("C46", "RocksDB iteration visits what was written",
  "A new iterator placed with SeekTo and moved with Next shows the keys something was written under, from the given key on, each once, in key order, with what a read of the key returns; it ends early at the first key whose operands cannot be merged, hiding the readable keys after it. SeekTo finds the least key not below, or with prev the greatest key not above, the given one, Key::END if there is none, and reports DB_FAIL if the value there cannot be merged.",
  "every history of writes, batches and compactions, every key",
  "unbounded stores; compaction states cannot be controlled by a test",
  "db/rocks_store.cc RocksDBStore::Iterator::SeekTo, Next, key, value")
p("C47", "A branch remembers its last event over restarts",
  "CreateBranch of a yarn succeeds (if the clock does not say NEVER) and leaves the yarn's first event as the branch's tip, which the next Open finds. From then on, whatever frames the branch receives and however RocksDB compacts its records, every Open of the branch succeeds and the tip is of the branch's yarn. If the frames have nothing but events and comments, the tip found by an Open is the last event of the last frame that was accepted and saved; a frame is accepted without being saved exactly if it has no event or ends with the event the branch was last opened at. Before the first Open a new branch is not bound to its yarn: it accepts a chain of another yarn, and can then not be opened any more: an Open succeeds if and only if the last event on record is of the branch's yarn, and compactions do not help. So it is with a branch made for yarn 0 while the store of a yarn is active, and with one made when the clock says NEVER or later. An Open that fails changes neither the records nor the tip. Writing a text makes a time of the clock the tip though there is no such event; the event with that id is later accepted but not saved.",
  "every history of received frames, restarts and compactions, every clock and its readings",
  "unbounded histories; when and what RocksDB compacts cannot be controlled by a test",
  "db/replica.cc Open, CreateBranch, Receive, Save, SaveChain", "db/rocks_store.cc RocksDBStore::Create, RDTMerge", "db/joined_store.hpp")
p("C48", "Events saved in a branch stay readable",
  "Whatever frames of events and comments a branch receives, however often it is opened again and however RocksDB compacts its records: at any later time a read of an object's log gives exactly the ops that were in it and the ops of the chains saved for the object since, in that order; a read of the object's state (LWW, MX and yarn forms) gives those ops once each in the order of ids. So every event of a frame that was accepted and saved is found in the log of an object, starting from the creation of the branch with its first event. A frame is accepted but not saved exactly if it has no event or ends with the event the branch was opened at. Conditions: the ops have distinct ids and can be written one after another, are not too many for 4 GB, and for logs no op continues another one as a span of characters. A text inserted as a span is accepted and saved, but once the log has another record its characters after the first come back as UUIDs; the state still has them.",
  "every history of received frames, restarts and compactions, every object",
  "unbounded histories; merges happen inside RocksDB, inside the commit and on reads, at times a test cannot control",
  "db/replica.cc SaveChain, Save, Open, CreateBranch, Receive", "db/rocks_store.cc RDTMerge, Read, Write", "db/joined_store.hpp Read", "rdt/log.hpp", "rdt/merge.hpp")
p("C49", "A fork has what the original had",
  "Forking a branch under a new yarn succeeds, and the fork opens as a branch of the new yarn whose last event is its first one. For every key before the first record that cannot be merged, a read of an object's log in the fork gives the ops that the original's log had (with the fork's own first event if it is of that object), in that order, and a read of an LWW, MX or yarn state gives the same ops; a read of a text object gives the same tree, and a query for the text is answered with the same text; frames received later are added on top as in C48. If some record cannot be merged (an object of a type without a merge, once it has two chains; a text in more than three pieces), the fork is still reported as OK but lacks all records from there on: in the first case also the chain records, so that it refuses events that follow events of the original; in the second case the text and the later texts and matrices, unless the pieces are compacted first.",
  "every branch with a last event, every new yarn id but 0, every key, every history of the fork afterwards",
  "the fork copies whatever mixture of merged values and pending operands RocksDB has at the time; the later merges are of copied texts, not of the original records",
  "db/replica.cc:112-131 ForkBranch", "db/rocks_store.cc Next, Read, Write")
p("C50", "A name is what its newest assignment says",
  "However names are assigned in a branch between received frames, restarts and compactions, reading the names gives for each name the value of the assignment with the newest id, among all assignments made in the branch, stored in it before, or received as events of object 0; names never assigned are absent. So an assignment made when the clock had seen all other assignments of the name is the one read back. This holds as long as the ids of assignments are distinct and no two of them follow one another directly. If two names are given within one tick of the clock, the second and all names given later are not read back; if the process restarts within the tick, one of two assignments is lost.",
  "every branch with a last event, every history of assignments, frames of events, restarts and compactions, every clock",
  "the record of the names is a merged text whose readability depends on the ids of all assignments ever made and on which of them were compacted together",
  "db/replica.cc:144-171 WriteName, ReadNames", "db/replica.cc:179-186 Now", "ron/text-builder.cc (spec omission)")
p("C51", "A version of an object is replayed from exactly the ops up to it",
  "Replaying an object's log up to a version splits the log into chains (maximal runs of ops each referring to the one before), in log order, covering exactly the ops up to the first one with the version's id, or the whole log if there is none; nothing after the version enters, except characters that run on from it in the same span, and nothing before it is left out. For a readable log of a last-write-wins, matrix, yarn or meta object whose references point back, the replayed state has exactly the ops up to the version, sorted by id; for a text array written in at most three chains it is the causal tree of them; in more than three chains it is refused as not implemented. In a branch, after any history of frames of events, restarts and compactions, such a version is recalled from the log the branch has kept, and a version that is not in the log recalls the ops of the stored state. A version inside a span also recalls the rest of the span. A log that is broken after its first op is reported as bad syntax if the break is met; one broken from the start is replayed as an empty state without an error.",
  "every log text for the split, every readable log of canonical form for the state, every version other than NIL",
  "where the chains are cut depends on the ids and references of all ops of the log and on how spans were written; there are no tests with versions inside spans or logs of many chains",
  "rdt/rdt.hpp:168-222 SplitLogIntoChains, ObjectLogIntoState, ObjectLogToState", "db/replica.hpp:254-260 GetObjectVersion", "ron/slice.hpp EndAt", "rdt/rga.hpp Merge")
p("C52", "A query is answered with what the branch has",
  "A received frame of queries for object states is answered with the ops that reads of the objects give, in the order of the queries, each op once; the branch and the status are the same as when the answer is thrown away. After any history of frames of events, restarts and compactions, the answer for an object kept in id order (LWW, MX, yarn) is one readable chunk of exactly the ops it had before and those of the chains accepted for it since, in id order. An object nothing is known of is answered with nothing and OK; one that cannot be read gives the read's status and no answer. A log query for an event of such an object, if it succeeds, is answered with exactly the object's older ops (with the whole state if the event created the object). Exceptions: if the last two ops of a state are in one span, the answer is garbled (characters become UUIDs, a removal is lost); if the next object's id follows the last id of the previous answer, the second answer is unreadable; for text arrays the log query gives the ops placed before the event, not those older than it. The get command never answers anything.",
  "every frame of queries, every branch; for the contents every history of received frames, restarts and compactions",
  "the stored state is a mixture of merged values and operands, and what the copying loop does at the end of a span depends on how the state happens to end",
  "ron/frames.hpp:187-204 AppendAll, AppendFrame", "db/replica.cc:472-527 QueryObject, QueryObjectLog", "db/replica.cc:624-641 ReceiveQuery", "db/replica.cc:696-752 Receive", "db/main.cc:359-402 CommandGetFrame")
p("C53", "A text query is answered with the visible text, as far as it is in runs",
  "A received query for the text of an object (the object's id marked as derived, the txt form) is answered with one op: the same id, the form, and the characters of the visible elements of the object's tree in tree order, up to the first visible element that the stored frame does not keep inside a span. In particular the answer is the whole visible text if every visible element is in a span; a single character typed into the middle of a run ends the text, and a text of separate words or characters is answered as empty, with OK. The state is the merged one: for up to three unmerged frames the tree is the merge of their trees, and its elements are in spans exactly where the writer groups neighbours. Neither the store nor the status depends on the text. If a visible element has no value, or a removal or an undo has nothing to work on, the answer is undefined behaviour, though such frames are accepted like any other. A frame of several queries, for texts and for states, is answered with the texts and the states in the order of the queries; the answer to two queries for objects with consecutive ids, however, cannot be read beyond the first text.",
  "every branch, every object with a tree of fewer than 2^30 ops, every way of hiding elements",
  "the answer depends on how the merged state happens to be grouped into spans, which depends on the whole editing history",
  "db/map/txt.hpp:11-32 Read", "db/replica.cc:602-612 ReceiveMapQuery", "db/replica.cc:624-641 ReceiveQuery", "rdt/rga.hpp:129-240 ScanRGA", "ron/op.hpp:54-66 WriteAtoms", "ron/text-parser.cc:24-45 Next, spans")
p("C54", "What a local user writes through Receive is acknowledged and lost",
  "A received frame without stamped events and names changes no object, whatever its status: over any number of such frames and restarts every record other than the branch's last-event record stays the same. In particular a frame of new events (ids without an author, no empty strings, no spans) is answered with OK and the branch is as before; with an empty string or a span it is undefined behaviour. New texts for stored objects, any number of them in a frame, are answered with OK, the stored objects and so the texts told to later queries stay the same, and the branch records as its last event a timestamp of the clock that no event has: after a restart it goes on from there, and a frame of events is refused if its last event was stamped earlier (an accepted frame of events ends with a later event of the yarn than the one the branch was opened at, or with that very event, and then nothing of it is saved; a refused one leaves the branch as it was).",
  "every branch, every sequence of such frames and restarts, every clock",
  "that every acknowledged write is lost is a statement over all frames and all later reads; a test sees the OK",
  "db/replica.cc:549-573 WriteNewEvents", "db/replica.cc:575-600 ReceiveWrites", "db/replica.cc:614-622 ReceiveMapWrites", "db/map/txt.hpp:67-138 WriteDiffs, WriteState", "db/map/txt.hpp:164-183 Write", "db/replica.cc:662-683 Save", "ron/op.hpp:81-108 Amend")
p("C55", "Branches of a replica do not disturb one another",
  "An operation of a replica changes only the store it is about: a received frame, a creation, a fork or a drop only the named branch, the choice of an active store only the metadata; opening changes no record of any store. So whatever happens in a replica, including frames for other branches, new and dropped branches, forks, restarts and refused calls, a branch with a last event goes through exactly what concerns it as a branch alone would (some history of frames, openings and compactions, with the same answers), and all that holds of a single branch's history (C47-C54) holds of it. A branch made or forked in a replica is the one made or forked alone.",
  "every replica, every sequence of operations, every branch that is not dropped, as long as openings of the replica succeed",
  "it is a statement about all interleavings of the histories of any number of branches that share one clock and one database",
  "db/replica.cc:36-143 Open, SetActiveStore, CreateBranch, ForkBranch, DropStore", "db/replica.cc:696-752 Receive", "db/replica.hpp:53-73, 137-170", "db/rocks_store.cc:318-350 OpenAll")
p("C56", "A replica can always be opened again",
  "From its creation on, whatever events its branches receive, a replica opens after each restart and close, and its life cycle is the simple one: a branch is made unless there is one of that yarn, a fork unless the original is missing or the copy exists, a drop removes exactly the named branch and never the metadata, operations on a closed replica or a missing branch are refused, every other call succeeds. This needs: clock readings and the replica's clock before NEVER, no frames for a branch between its creation and the next opening, no branch for yarn 0. Otherwise the replica answers OK but cannot be opened any more: a branch made after an event stamped one tick before NEVER was received, a branch made for yarn 0 while another store is active, and a frame of another yarn for a branch just made.",
  "every sequence of operations from the creation of the replica, every frame, every clock",
  "an opening fails because of what was accepted long before; the failing histories need an event from the far future or an unusual order of calls",
  "db/replica.cc:16-143", "db/replica.cc:179-201 Now, Close", "db/replica.cc:285-299 See", "db/replica.cc:662-683 Save", "db/rocks_store.cc:127-191, 318-350")
p("C57", "A new branch starts later than all events on record",
  "The first event of a branch made in a replica has a greater time than the last event on record in any of its stores, those from before the last restart included, whatever the system clock says (if the replica is used as C56 asks for). Events of branches that were dropped before the last restart do not count: a branch that is made anew may start at a time earlier than events it had before.",
  "every life of a replica, every reading of the system clock",
  "the clock is rebuilt at each opening from the records of all branches; a test does not move the system clock back",
  "db/replica.cc:45-63 Open", "db/replica.cc:86-110 CreateBranch", "db/replica.cc:179-186 Now", "db/replica.cc:285-299 See")
p("C58", "The choice of the active store lasts until the process ends",
  "The active store is the one chosen last in the process by a call that was answered OK, closing and opening the replica and dropping the store notwithstanding. A new process starts with the store of the metadata as the active one until another choice is made: the record written by the choice is never taken up by Open.",
  "every replica, every sequence of operations",
  "the record is written and read without an error, only its content is never used; a test within one process sees the right store",
  "db/replica.cc:36-83 Open, SetActiveStore", "db/replica.hpp:53-73")
p("C59", "The index over an object shows what its newest ops say",
  "LWWObject built over a state that is in the order of ids shows for each field the value of the newest op that sets it: uuid() the UUID, string() the characters, a field never set or of another type as absent; the number() of a field is there exactly if the value is a float, and is the integer with the bits of that float. In particular, after any history of frames of events, restarts and compactions, the index over an LWW object read from the branch shows the newest among the ops it had and the events accepted since. For any other text it shows the last op of the frame, up to the first syntax error. Update() puts the last ops of a frame on top, whatever their ids, and leaves the other fields as they were. An op made by Write() refers to itself, and every branch refuses it as a causality violation, unchanged. Exceptions: a late update overrides a newer value; a string from an update is read from the frame the index was made over, which gives other characters, or reads beyond its end if that frame is the shorter one (it is right if that frame begins with the update); number() gives the integer with the bits of the float; string() of an absent field fails an assert.",
  "every text for the index and its updates, every object and field; for branches every history of received frames, restarts and compactions",
  "the value shown depends on all ops of the object; the ranges of strings point into whichever frame they came from",
  "rdt/lww_obj.hpp", "ron/frames.hpp:125-137 ReadString", "db/replica.cc CheckSanity", "ron/text.hpp:48-62, 121-126")
p("C60", "The events of one author are stored in order, each once",
  "In any life of a branch, from its creation, through frames accepted and refused, restarts and compactions, the stored events of one yarn (one author) come in increasing order of their ids, so no id is stored twice. This holds if the events are before NEVER, no object has one of the store's own types or an id that reads as a number, and each accepted frame satisfies: an event that opens a yarn comes before the other events of that author in the frame; and all chains but the last are of objects merged by id (LWW, MX, yarn), or all objects are. Frames with one event satisfy that. Both conditions are needed: a frame that goes on with a yarn and then opens it again is accepted and stores two different events with one id; a frame with two chains of a MAX object stores an event again with another value and its author is then blocked. A frame with two chains of one author can also be refused though the chains are accepted one by one.",
  "every life of a branch: any number and order of frames, restarts and compactions, any number of authors and objects",
  "the order follows from what a search over the stored chains and the joined logs finds at each chain of each frame; it is an invariant of all histories",
  "db/replica.cc:210-300 FindOpMeta, FindChainHeadMeta, FindYarnTipMeta, FindObjectLog", "db/replica.cc:302-440 SaveChainlet, SaveChain", "db/joined_store.hpp", "rdt/max.hpp", "rdt/lww.hpp")
p("C61", "Every stored event belongs to one object, and the object has it",
  "In such a life every stored event belongs, by its references, to exactly one object, whose type is the one it was created with. The log of an object has exactly the events that belong to it, each once, in the order they were stored. The state of an object of type LWW, MX or yarn has exactly the same events in the order of ids. Without the conditions it fails: an object of type log or meta stops its author or the whole branch; so does an object whose id looks like a number. The same for a text typed as a span of characters: once the log is written again, a point, a quote, a colon or a line end in the text makes the branch refuse all further events of the author, and a semicolon adds an event that nobody wrote, to which others can then refer.",
  "every life of a branch as in C60, every object in it",
  "it relates the references among all events ever received to the contents of the keys after merges and compactions",
  "db/replica.cc:210-300 FindOpMeta, FindObjectLog", "db/replica.cc:302-440 SaveChainlet, SaveChain", "db/rocks_store.cc", "rdt/lww.hpp", "rdt/mx.hpp")
p("C62", "Branches that have the same events show the same objects",
  "Two branches that have stored the same events, in whatever frames and order, with whatever restarts and compactions, read the same state of every object of type LWW, MX or yarn: the events that belong to it, in the order of ids. So do branches to which the same events came, each once, in frames they accepted. (Their logs may differ in order.)",
  "every pair of lives as in C60; every object",
  "it quantifies over pairs of histories that differ in frames, order, restarts and compactions",
  "db/replica.cc ReceiveFrame, SaveChain, Commit", "rdt/lww.hpp", "rdt/mx.hpp", "db/rocks_store.cc")
p("C63", "The kind of a name is told by its letters",
  "base64_case of a word says the kind of the name by the characters it is written with: CamelCase if there are capitals (or ~) and small letters (or _), CAPS with capitals only, snake_case with small letters only, numeric with neither. It is the same for the name as typed, whatever zeroes trail it, and for the name as written.",
  "every 60-bit word, every text of a UUID",
  "the loop counts the letters of ten six-bit digits; a test has a few words of the 2^60",
  "ron/uuid.cc:20-35 base64_case", "db/main.cc:63-124 ResolveName, ScanAsNameArg, ScanOnBranchArg")
p("C64", "A command of swarmdb changes what it is asked to, or nothing",
  "A process that runs one command on a replica leaves every store as it was if it fails or crashes, or if the command is not create, drop, hop or name. Else create adds one store with the new yarn and leaves all others, but for the records of the names and of the active store in the metadata; drop removes the one store the word stands for, never the metadata; hop touches only the record of the active store; name touches only the record of names in one store. After any number of commands and compactions the replica can be opened again. create succeeds for a free yarn with no tag or one in CamelCase; name for a timestamp and a name that is not 0; drop for a branch given by its id or by a CamelCase name. Exception: a tag with an origin (Abc+Def) is accepted by create and taken by no other command.",
  "every replica made by init and commands, every command line and clock before NEVER",
  "it is a frame condition over all stores and records, for every sequence of processes",
  "db/main.cc:147-231 CommandInit, CommandCreate, CommandFork, CommandDrop", "db/main.cc:548-773", "db/replica.cc:18-176")
p("C65", "A name means what it was last given to, across processes",
  "After init, any sequence of commands, each a process of its own, and compactions at any moment, ReadNames of the metadata gives for each name the value of the last command (create as, name as) that gave it and succeeded, and nothing for other names; a word on the command line stands for just that. The processes have to be two ticks or more of the clock apart, and the names not read as numbers. Exceptions: of two names given in the same tick the first is lost; with the system clock set back a name keeps its old meaning; a name like 1e5 is accepted and not kept.",
  "every sequence of commands and compactions, all names",
  "it depends on the merging of all assignments ever made, by clocks of different processes; a test runs a few commands",
  "db/main.cc:63-186 ResolveName, CommandCreate", "db/main.cc:575-597 CommandName", "db/replica.cc:144-176 WriteName, ReadNames", "rdt/lww.hpp")
p("C66", "list and named print every store and every name once",
  "named prints the current names of the metadata of the kind asked for (yarns, objects, versions, or all), each with its value, each once and nothing else. list prints a line for each store, with a name that now means it, or 0 if none does. With C65: after any history named prints exactly the last meanings. named of a kind on a word prints those of the store the word stands for. Exception: if the word stands for an event, not a store, named crashes whenever there is a branch of the yarn of the event, and fails with BADARGS otherwise.",
  "every replica, every order in which the unordered map is walked",
  "the map is filled from the merged record of all assignments and walked in an order of its own",
  "db/main.cc:309-332 CommandDump", "db/main.cc:538-636 CommandList, CommandNamed")
p("C67", "Every command works on the store of the metadata",
  "As a process starts with the metadata as the active store (C58) and frames go to the yarn 0 by default: fork always fails; get and new never succeed; write either fails, or was given a frame without an op, and stores nothing; on says 0 (or a name given to 0). So in any sequence of commands no record of a branch changes after its creation, but for its names. hop says it succeeded, yet the next command is on the metadata again; hop with no word, or with any words of which the first is not on, does exactly what hop on 0 does. recall v of x prints the version v (C51) of x as the log in the metadata has it, if x is an event not after v, and changes nothing; an object of a branch is not found, and recall says OK and prints nothing (C67_recall_refuted).",
  "every replica, every command line, every sequence of commands",
  "that no command line at all can make these commands work is a statement over all arguments and states",
  "db/main.cc:190-216 CommandFork", "db/main.cc:360-484 CommandGetFrame, CommandWrite, CommandNew", "db/main.cc:412-426 CommandRecall", "db/main.cc:642-663 CommandHop, CommandOn", "db/replica.hpp:120-170", "db/replica.hpp:254-260 Recall")
p("C68", "A test script is cut into its parts and nothing is lost",
  "swarmdb test cuts a script into parts, each beginning with a comment (@~) that ends with ! or ?. There is exactly one such cut, and each part is written as a frame of its own that reads as the ops the part has in the script: the same ids, references and values in the same order, and the terminators; only the comment a part begins with may lose its reference. The script must write no span of characters that a terminator closes or that is made of ops with terminators of their own (C68_span_refuted: the characters after the first become bare tokens), and no id of it may be the one before the id of comments.",
  "every script in the grammar, every number of parts, whatever blanks are between its tokens",
  "a test has a handful of scripts; the cut reads with a cursor and writes with a builder that keeps its state across parts",
  "db/main.cc:234-250 SplitTests", "ron/text.hpp:253-342 Builder::ExtendSpan, AppendOp, EndChunk, Release")
p("C69", "A test script passes if and only if every response is the expected one",
  "swarmdb test runs the parts of a script on a new branch: a part that begins with a comment ending with ! (or ;) is received, what is answered is added to the response; a part that begins with one ending with ? is compared with the response, which then begins anew. The verdict is OK if and only if every part received is accepted and every response has the ops of the part it is compared with (ids, references, values, in order; comments and terminators do not matter); otherwise it is the status of the first part that fails. A script that does not begin with a comment, or begins with one that has no terminator of its own, fails with BADFRAME. So a script that writes events, asks for the state of an object and compares it passes if and only if what is expected is the events of the object, each once, in the order of their ids. An empty response is never the expected one, even if no ops are expected; what follows a syntax error in a script is not run at all, and the verdict may be OK.",
  "every script, every replica, every outcome of its calls",
  "the two scripts of the repository both pass, so nothing there says that a wrong response would fail",
  "db/main.cc:256-303 CommandTest", "db/main.cc:719-730", "ron/frames.hpp:77 CompareFrames", "db/replica.hpp:397-404 ReceiveFrame")
p("C70", "A slice is a view of its bytes",
  "A Slice made of a pointer and a length, of two pointers, or of a range of a string shows exactly these bytes, and lengths above the limit, pointers in the wrong order and ranges past the end of the string are caught. A Slice over some bytes of memory has their number as its size, gives each of them by its index and none past the end. After any sequence of Consume, ++, EndAt and Resize within its bytes, the slice shows the bytes left, consumed() those passed, reset() both; a step past the end, an end before the beginning, a part past the end and cutting off a slice of another buffer are caught by asserts. slice(range) shows the bytes of the range and range_of finds the range again, also the other way round; CutOff leaves what is before the other slice. == holds if and only if the bytes are the same, and then the hashes are the same. Exceptions: the empty range at the end of a slice aborts; an index or a step near 2^32 wraps around and is not caught; EndAt and Resize past the end are not caught, nor are Shorten below offset zero and a range that ends before it begins; the slice of a string of 2^32 bytes or more has not its size; a doubled byte hashes like the empty slice.",
  "every memory, every slice of it, every sequence of moves and every range",
  "the offsets are 32-bit and wrap; a test has slices of a few bytes at the start of a buffer",
  "ron/slice.hpp:53-129 Range", "ron/slice.hpp:135-234 Slice")
p("C71", "The text of a slice is right at the beginning or at the end of a string",
  "str() of a slice of a std::string without zero bytes is what the slice shows if and only if the slice is at the beginning or at the end of the string; a slice in the middle gets bytes after its end as well. In any memory a slice from the start of its buffer gets what it shows if there is no zero byte in it and one comes later; if none comes, the read goes past the memory. A zero byte inside cuts the text, or makes the call throw. So dump, which prints values of RocksDB this way, relies on a zero byte after each value.",
  "every memory, every slice of it",
  "tests take the text of whole strings only, where the fault does not show",
  "ron/slice.hpp:209-212 str", "ron/text.hpp:17 TextFrame(Slice)", "db/main.cc:328 CommandDump")
p("C72", "Branches with the same events of a text agree on it, while it is in at most three pieces",
  "A branch keeps a text object (RGA) in pieces: each accepted frame adds one, compaction merges some. Whatever the pieces, the order in which they came and the compactions, the pieces hold the events stored under the object; if these make one tree (distinct ids, references to earlier events, one root) a read gives that tree, in the one order a causal tree has, as long as at most three pieces are left unmerged (or all are merged in one); with more the read fails. So two branches that have stored the same events under a text object read the same tree, and answer a query for the text with the same characters. If no event continues another in a span and each frame is one chain, the events stored under the object are those whose references lead to its root. Exception: after a fourth change the text can be neither read nor told, until some of the pieces, not all of them at once, are merged. But it is never lost: from every state of the branch, taking the oldest piece into the value, as often as there are pieces left, makes the text readable with all its events, and changes neither the tip nor any other record (C72_recovers). So two branches that have stored the same events under a text object can both be brought to read the same tree, in however many pieces each has it (C72_agree_recovered). Also where events are written in spans: if each piece was stored after those it hangs on, the same compactions make the branch read the tree of the stored events and answer a query for the text as C53 says of that tree (C72_text_recovered).",
  "every life of a branch (frames, reopenings, compactions), every text object with at most one chain in a frame, every two branches",
  "the order of arrival, the framing and the compactions multiply; a test merges two or three pieces once",
  "rdt/rga.hpp:17-94 RGArrayRDT", "db/rocks_store.cc:59-105 RDTMerge", "db/replica.cc:302-440 SaveChainlet, SaveChain", "db/replica.cc:662-683 Save", "rdt/rga.hpp:129-241 ScanRGA")
p("C73", "Status codes survive being sent and are told apart",
  "Each error constant is printed as its word (NOT_IMPLEMENTED as NOTIMPLTED, NOT_FOUND as NotFound, the others as they are spelled), no two have the same code or word, and none is true or equal to OK. An error sent as a UUID text is received as the same error; a text received is no error if and only if it is a UUID text outside the scope of ten tildes, so that garbage is an error. What is printed tells the word and the comment. A comment changes neither == nor the truth of a status. IFOK returns the first error of a sequence of calls. Exception: the scope is not printed: two statuses are printed alike if and only if the 60 bits of their words and their comments are the same, so every error has a twin that is none.",
  "every error code of 60 bits, every text received, every two statuses",
  "a test compares single constants; the constants are numbers that only decode to the words",
  "ron/status.hpp:10-71", "ron/status.cc:5-33")
p("C74", "init in the directory of a replica is not refused and makes the metadata forget its last event",
  "In the directory of a replica that has branches, init fails and changes nothing. In that of a replica without branches it answers OK, whatever commands, compactions and inits came before: every record but that of the last event of the metadata is as it was (so the names stay), the replica can be opened again, but the metadata has no last event any more and the clock of the next process starts from zero instead of that event. So with a system clock set back a new branch can begin before the first event of the replica, which it cannot without the init (C57).",
  "every history of a directory: init, then any commands, compactions and inits; every reading of the system clock; every system clock before NEVER",
  "a test initialises an empty directory; the damage shows only in the ids that later commands give, and only if the system clock went back",
  "db/main.cc:147-152 CommandInit", "db/main.cc:726-740 main", "db/replica.cc:15-34 CreateReplica", "db/rocks_store.cc:127-157 Create", "db/replica.cc:390-440 SaveChain")
p("C75", "dump prints the records of a store in the order of their keys, up to one it cannot read",
  "dump (of the metadata, of a branch given by its id or name, or of a replica made by init after any history) changes nothing and prints the records of the store in the order of their keys: for each the name of its form, its id and the state a read gives. It stops at the first record whose read fails and says OK all the same; it fails only if there was nothing to print. A store is printed whole if and only if all of its records can be read. A store with only forms whose merge never fails (yarns, logs, metadata, LWW, MX, MAX: all but texts and unknown forms) is printed whole, so the metadata always is. The id shown is that of an event: names are shown as ids of events (C75_ids_refuted). With a text that cannot be read, the records after it are hidden and dump says OK (C75_hidden_refuted); an id of an event of a yarn with a branch, instead of that of the branch, always makes dump crash (C75_crash, C75_crash_refuted); of a yarn without one it fails with BADARGS.",
  "every replica in good order, every store with keys of 64-bit words; every history of a directory",
  "a test dumps one small database and reads the output by eye",
  "db/main.cc:309-332 CommandDump", "db/main.cc:107-124 ScanOnBranchArg", "db/key.hpp:55-65 Key::id, str", "ron/form.hpp:110-116 form2uuid", "db/rocks_store.cc:252-315 Iterator", "db/replica.hpp:166-170 GetStore")
p("C76", "The stores of a replica are found again under their ids",
  "In the database a store is a column family with a name: default for the metadata, the text of its id otherwise. After any history of a replica (frames, new branches, forks, drops, reopenings, compactions) no two families have one name, and opening finds exactly the stores with their records, in whatever order the database lists them. The database makes the family of a new branch exactly when the replica has no such branch, and dropping a family takes away that store only. Two yarns share a family only if their 60 bits are the same. A store with the name default as its id would be taken for the metadata (C76_default_refuted), one with the upper two bits of the origin set is found under another id (C76_bits_refuted); no others are lost so; branches never have such ids.",
  "every history of a replica, every order of the families, every yarn",
  "the ids of branches are random; a test sees a few of them",
  "db/rocks_store.cc:131-157 Create", "db/rocks_store.cc:178-183 Drop", "db/rocks_store.cc:319-353 OpenAll", "db/replica.hpp:146-148 yarn2branch", "ron/uuid.hpp:70-74 Time")
p("C77", "A UUID is the id of a mapper exactly if it is the word of the mapper",
  "uuid2map gives one of the eleven codes for exactly one UUID each, the one written chain, meta, op, yarn, sha2, prev, head, obj, csv, txt or json; every other UUID, among them those that differ in flags, origin or later letters, gives MAP_COUNT. map2uuid gives the UUIDs back, and the fatal error for MAP_COUNT, which is no mapper itself. Words that are names of forms as well are the same UUIDs.",
  "every UUID of two 64-bit words",
  "the switch looks at 8 bits of 128; the one test compares the codes of two words",
  "db/const.hpp:9-81", "ron/form.hpp:19-41 FORMS")
p("C78", "Garbage collection of a last-write-wins frame keeps one write, not one per key",
  "LastWriteWinsRDT::GC takes two halves of the origin of a key for a range of bytes of the frame and keeps, of the ops with the same bytes there, the last. Of a frame whose keys are plain names, so, only the very last write is left, whatever the keys; MergeGC of several such frames leaves the write with the greatest id of all. The header never is kept, a frame without writes is reduced to nothing. A key that is a string, a number or the id of an event fails an assertion (frames of less than 2^28 bytes). MergeGC of cursors as the frames hand them out, not yet moved to the first op, gives nothing, and so does GC of metadata. That the last write of each key is kept is false (C78_last_refuted), that every readable frame is handled too (C78_safe_refuted).",
  "every readable frame of less than 2^30 bytes, every set of frames that can be merged",
  "the one test has keys of one character and looks at one sequence of ops; which bytes stand for a key depends on its kind, its flags and the size of the frame",
  "rdt/lww.hpp:30-61 GC, MergeGC", "rdt/meta.hpp:30-37 GC", "ron/slice.hpp:160-163 Slice(String, Range)", "ron/uuid.hpp:22 as_range")
p("C79", "The strings of an op made in the program",
  "Op{id, ref, values...} takes its strings as UTF-8. Written by AppendOp and read back, an op with proper UTF-8 has exactly its values again. Of a string with a mistake the characters before the mistake are kept and nothing is said; if the mistake is a byte that begins no character, the last character before it is lost as well. Read directly, without a text in between, GetString gives only the first character of a string and says OK, of the empty string it gives nothing and says it failed; ReadString16 gives all but the first and says it failed. An op amended from one that was read, as for a new local write, writes nothing of a string at its beginning, and of a string at one of its characters writes that one twice and the last one not at all.",
  "every id and reference that can be written, every list of values, every string of bytes; every string of a frame",
  "strings of bytes are endless, and the mistakes of the UTF-8 parser depend on the state it is in; the one test reads proper strings back through a text",
  "ron/op.hpp:12-75 Op", "ron/op.hpp:80-105 WriteValues, Amend", "ron/utf8-parser.cc:21-200 ParseUtf8", "ron/frames.hpp:125-160 ReadString, ReadString16, GetString", "ron/text.hpp:190-220 WriteValues")
p("C80", "Reserialize writes frames with the same ops",
  "Reserialize of cursors at the first ops of frames gives one frame for each, in order, with the same ids, references and values in the same order, also where ops are in spans of characters; so each is equal to the original for CompareFrames (C39). The terminators are not kept, whatever they were: the ops of the span at the end of the frame get a semicolon and all ops before it a comma, so a query comes out as a plain op. A frame with a syntax error stops it with that error; the frames before it are there. A cursor as its frame hands it out, not yet moved to the first op, fails an assertion.",
  "every list of readable frames of less than 2^30 bytes whose ops the builder can write one after the other (C16)",
  "the one test writes two small chains anew",
  "ron/frames.hpp:104-120 Reserialize", "ron/text.hpp:285-342 AppendOp, Release", "ron/text-parser.cc:24-57")
p("C81", "The last write of a field wins on every branch",
  "In any life of a branch in which the events have different ids and the objects are merged by id (the conditions of C60 and C62), LWWObject built over an LWW object read from the branch shows of every field the value that the newest of the events writing it gives, however many authors wrote it and in whatever order and frames their events came; a field no event writes is absent. Two branches that have the same events show the same uuid(), number() and string() of every field of every LWW object, though their stores differ.",
  "every life of a branch and every pair of lives: any number and order of frames, restarts and compactions, any number of authors, objects and fields",
  "the order of arrival, the frames and the compactions vary without bound; that the older write loses even when it comes later follows only from an invariant of the merge over all histories",
  "rdt/lww_obj.hpp", "rdt/lww.hpp", "db/replica.cc:302-440 SaveChainlet, SaveChain", "db/rocks_store.cc:45-112 RDTMerge")
p("C82", "A hash report of a frame has no hashes and finds no wrong one",
  "CommandHashFrame on a frame in which every event creates an object or references an event before it (and hash records have at most 43 characters) succeeds and prints one sha2 record for each event, in order, each with an empty string; the text is a frame once the last terminator is added. So the report depends on the ids of the events only, not on what they say, nor on the hash records in the frame. The first event with a reference that is not there makes it a tree gap, one with a reference that is neither an event nor a name a bad state, with nothing printed. It never reports a hash break: no hash record, right or wrong, is ever refused. A record longer than 43 characters fails an assert; a syntax error ends the frame silently.",
  "every text, any number of events, authors and hash records",
  "that no record is refused is a claim about all frames; a test would have to guess a frame whose hash should be refused, and the report looks well-formed",
  "db/main.cc:486-536 CommandHashFrame (compiled, called by no command)", "ron/hash.hpp:183-190 hash_op", "ron/hash.hpp:43-55, 73-91 matches, ParseBase64, base64", "ron/hash.cc:6")
p("C83", "A text in any number of pieces can be merged in steps",
  "One causal-tree merge takes at most three inputs (C22), but a text whose pieces are more can be put together in several merges: whatever the plan (which pieces, or results of merges, go into which merge), if no merge of it is refused, the result lists the one causal tree of all the ops. Two plans over the same ops, even cut into different pieces, give the same ops in the same order. And a plan that is never refused exists whenever every piece but the one with the oldest first op references an op of some piece: merge the pieces one after another, in the order of their first ops. In the RocksDB store, where a read of a key with more than three pieces fails, the text is read again, with all its ops, after compactions that take the oldest piece into the value, once for each piece, if every piece but the first references an op of a piece stored before it; the other keys stay as they are. So a text whose pieces are written in causal order is never lost, whatever writes and compactions there were before (C83_never_lost). Exception: other orders can be refused, such as the merge of two pieces that both hang on a third; then such compactions never get anywhere, and four pieces written in a wrong order can be unreadable for good, whatever is compacted (C83_never_lost_refuted).",
  "every number of pieces with distinct ids, every plan of merges, every history of writes and compactions",
  "plans and trees are unbounded; the result must not depend on the plan",
  "rdt/rga.hpp:35-89 Merge, MergeBig", "db/rocks_store.cc:59-103", "rdt/rdt.hpp:33-75 Merge")
p("C84", "Escaped bytes are had back",
  "Builder::escape of any bytes, put anywhere in memory, is turned back into exactly those bytes by TextFrame::unescape; the escaped text has no line end, tab, backspace or form feed, and no quote without a backslash right before it. Escaping the UTF-8 of any code points gives the text that writing the code points one by one gives, so the string reader gives them back (but for the zero and the form feed, C84_feed_refuted). Of any slice unescape makes one byte per plain byte or per backslash and byte; of a text of the grammar it makes the UTF-8 of its characters, except that of a backslash, u and four digits it only drops the backslash; TextFrame::string does the same for every string of a frame that is not empty. Exceptions: a slice that ends with a lone backslash is read past its end, so the result depends on what follows it in memory (C84_bounds_refuted); escapes with four digits are not decoded (C84_unicode_refuted).",
  "every string of bytes, every memory around it, every string of a frame",
  "the strings, and the memory after them, are endless; no test calls the pair",
  "ron/text-builder.cc:60-106 WriteString, escape", "ron/text.cc:38-50 unescape", "ron/text.hpp:24-28 string", "ron/text.hpp:372-391 decode_esc")
open('/verif/properties.jsonl', 'w').write(''.join(json.dumps(x) + '\n' for x in P))
print(len(P))
