(* What a replica with several branches is supposed to do. *)
From Verif Require Import Prelude UuidModel KeyModel CodecModel TextModel MergeModel StoreModel RocksModel ClockModel
  ReplicaModel ReplicaSpec BranchModel BranchSpec HostModel.

(* ---- the life cycle: whether the replica is open, and which stores it has ---- *)
Definition no_op (frame : bytes) : Prop := forall c, ~ delivered frame c.
Inductive goes : bool -> list uuid -> hevent -> rstatus -> bool -> list uuid -> Prop :=
| goes_blank o l rs y f : no_op f -> goes o l (HReceive rs y f) ROk o l
| goes_shut l rs y f : ~ no_op f -> goes false l (HReceive rs y f) RNotOpen false l
| goes_nowhere l rs y f : ~ no_op f -> ~ In (branch_id y) l -> goes true l (HReceive rs y f) RNotFound true l
| goes_frame l rs y f s : ~ no_op f -> In (branch_id y) l -> goes true l (HReceive rs y f) s true l
| goes_twice l rs y t : In (branch_id y) l -> goes true l (HCreate rs y t) RBadArgs true l
| goes_new l rs y t : ~ In (branch_id y) l -> goes true l (HCreate rs y t) ROk true (l ++ [branch_id y])
| goes_lost o l rs y x : o = false \/ ~ In (branch_id x) l -> goes o l (HFork rs y x) RNotFound o l
| goes_onto l rs y x : In (branch_id x) l -> In (branch_id y) l -> goes true l (HFork rs y x) RBadArgs true l
| goes_fork l rs y x : In (branch_id x) l -> ~ In (branch_id y) l -> goes true l (HFork rs y x) ROk true (l ++ [branch_id y])
| goes_none o l id : o = false \/ ~ In id l -> goes o l (HDrop id) RNotFound o l
| goes_main l : In NIL l -> goes true l (HDrop NIL) RDbFail true l
| goes_drop l1 id l2 : id <> NIL -> ~ In id (l1 ++ l2) -> goes true (l1 ++ id :: l2) (HDrop id) ROk true (l1 ++ l2)
| goes_inactive o l rs id : o = false \/ ~ In id l -> goes o l (HActivate rs id) RNotFound o l
| goes_active l rs id : In id l -> goes true l (HActivate rs id) ROk true l
| goes_again l : goes true l HOpen RBadState true l
| goes_open l : goes false l HOpen ROk true l
| goes_close o l : goes o l HClose ROk false l
| goes_restart o l : goes o l HRestart ROk false l
| goes_compact o l id k e : goes o l (HCompact id k e) ROk o l.
Inductive goes_on : bool -> list uuid -> list hevent -> list rstatus -> bool -> list uuid -> Prop :=
| go_end o l : goes_on o l [] [] o l
| go_more o l e s o1 l1 es ss o2 l2 : goes o l e s o1 l1 -> goes_on o1 l1 es ss o2 l2 -> goes_on o l (e :: es) (s :: ss) o2 l2.

(* ---- replicas in order ---- *)
(* t is the last event on record in a store of the replica *)
Definition records (h : host) (id t : uuid) : Prop := exists b, In (id, b) (h_stores h) /\ tipped (br_main b) t.
(* the store has a last event on record, of its own yarn, earlier than NEVER and
   not after the clock of an open replica; that of the metadata may have been
   forgotten (C74); fresh: the branches made since the
   replica was opened, whose tip in memory is not set yet *)
Definition in_shape (h : host) (fresh : list uuid) (p : uuid * branch) : Prop :=
  tip_ok (br_tip (snd p)) /\
  (fst p = NIL \/ exists y, fst p = branch_id y) /\
  (h_open h = true -> fst p = NIL \/ In (fst p) fresh \/ uorigin (br_tip (snd p)) = uorigin (fst p)) /\
  exists t, tipped (br_main (snd p)) t /\ (fst p = NIL \/ uorigin t = uorigin (fst p)) /\
    (version t = TIME \/ fst p = NIL /\ t = NIL) /\ uvalue t < NEVER_W /\ (h_open h = true -> uvalue t <= h_now h).
Definition sound (h : host) (fresh : list uuid) : Prop :=
  h_now h < NEVER_W /\ NoDup (map fst (h_stores h)) /\ In NIL (map fst (h_stores h)) /\ Forall (in_shape h fresh) (h_stores h).

Definition early (rs : list N) : Prop := Forall (fun r => r < NEVER_W) rs.
(* the system clock is before NEVER; a branch gets no frames between its creation
   and the next opening; yarn 0 has no branch, but for a transcendent one *)
Definition sane (fresh : list uuid) (e : hevent) : Prop :=
  match e with
  | HReceive rs y _ => early rs /\ ~ In (branch_id y) fresh
  | HCreate rs y t => early rs /\ (t = true \/ y <> 0)
  | HFork rs y _ => early rs /\ y <> 0
  | HActivate rs _ => early rs
  | _ => True
  end.
Definition then_fresh (fresh : list uuid) (e : hevent) (s : rstatus) : list uuid :=
  match e, s with
  | HCreate _ y _, ROk | HFork _ y _, ROk => branch_id y :: fresh
  | HOpen, ROk => []
  | _, _ => fresh
  end.

Section Host.
Variable sha : bytes -> bytes.
Variable fbits : bytes -> N.
Variable fuel : nat.
Notation h_step := (h_step sha fbits fuel).
(* the events of a run are sane, and the clock of the replica stays before NEVER *)
Fixpoint careful (fresh : list uuid) (h : host) (es : list hevent) : Prop :=
  match es with
  | [] => True
  | e :: r => sane fresh e /\ forall h1 s, h_step h e = Done (h1, s) -> h_now h1 < NEVER_W /\ careful (then_fresh fresh e s) h1 r
  end.
End Host.

(* ---- one branch among the others ---- *)
(* the store that an event is about; an opening is about all of them *)
Definition about (e : hevent) (id : uuid) : Prop :=
  match e with
  | HReceive _ y _ | HCreate _ y _ | HFork _ y _ => branch_id y = id
  | HDrop i | HCompact i _ _ => i = id
  | HActivate _ _ => id = NIL
  | HOpen => True
  | HClose | HRestart => False
  end.
(* what an event of the replica, with its answer, is to the branch id *)
Inductive part (id : uuid) : hevent -> rstatus -> list bevent -> list rstatus -> Prop :=
| part_frame rs y f s now : branch_id y = id -> part id (HReceive rs y f) s [BReceive now rs f] [s]
| part_shut rs y f : branch_id y = id -> part id (HReceive rs y f) RNotOpen [] []
| part_blank rs y f : branch_id y = id -> no_op f -> part id (HReceive rs y f) ROk [] []
| part_open now : part id HOpen ROk [BOpen now] [ROk]
| part_again : part id HOpen RBadState [] []
| part_compact k e s : part id (HCompact id k e) s [BCompact k e] [s]
| part_twice rs y t : branch_id y = id -> part id (HCreate rs y t) RBadArgs [] []
| part_onto rs y x s : branch_id y = id -> s <> ROk -> part id (HFork rs y x) s [] []
| part_none e s : ~ about e id -> part id e s [] [].
Inductive parts (id : uuid) : list hevent -> list rstatus -> list bevent -> list rstatus -> Prop :=
| parts_none : parts id [] [] [] []
| parts_more e s es ss bes bss bes' bss' : part id e s bes bss -> parts id es ss bes' bss' -> parts id (e :: es) (s :: ss) (bes ++ bes') (bss ++ bss').
(* the event neither drops the branch nor fails to open the replica *)
Definition spares (id : uuid) (e : hevent) (s : rstatus) : Prop :=
  match e with HDrop i => i <> id | HOpen => s = ROk \/ s = RBadState | _ => True end.
(* readings of the system clock are 64-bit words *)
Definition words (e : hevent) : Prop :=
  match e with
  | HReceive rs _ _ | HCreate rs _ _ | HFork rs _ _ | HActivate rs _ => Forall (fun r => r < 2 ^ 64) rs
  | _ => True
  end.
(* the store chosen last in this process *)
Fixpoint last_active (a : uuid) (es : list hevent) (ss : list rstatus) : uuid :=
  match es, ss with
  | HActivate _ id :: es', ROk :: ss' => last_active id es' ss'
  | HRestart :: es', _ :: ss' => last_active NIL es' ss'
  | _ :: es', _ :: ss' => last_active a es' ss'
  | _, _ => a
  end.
