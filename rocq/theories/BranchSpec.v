(* What a branch is supposed to remember over restarts. *)
From Verif Require Import Prelude UuidModel KeyModel CodecModel TextModel BuilderSpec MergeModel MergeTextModel StoreModel RocksModel RocksSpec MetaModel ClockModel ReplicaModel ReplicaSpec BranchModel.

(* a frame with nothing but events and comments *)
Definition events_only (frame : bytes) : Prop := forall c, delivered frame c -> stamped c \/ text_id c = COMMENT.
(* c is the last event of the frame *)
Definition last_event (frame : bytes) (c : cursor) : Prop :=
  exists l1 l2, ops_of frame (l1 ++ c :: l2) /\ stamped c /\ Forall (fun d => ~ stamped d) l2.
Definition no_event (frame : bytes) : Prop := forall c, delivered frame c -> ~ stamped c.

(* What the branch remembers: o is the event it started from when it was last
   opened, u the last event of the last accepted frame. A frame that ends with
   the very event o is not saved at all. *)
Inductive recalls : uuid -> uuid -> bevent -> rstatus -> uuid -> uuid -> Prop :=
| rec_event o u now rs frame c : last_event frame c -> text_id c <> o -> recalls o u (BReceive now rs frame) ROk o (text_id c)
| rec_same o u now rs frame c : last_event frame c -> text_id c = o -> recalls o u (BReceive now rs frame) ROk o u
| rec_quiet o u now rs frame : no_event frame -> recalls o u (BReceive now rs frame) ROk o u
| rec_refused o u now rs frame s : s <> ROk -> recalls o u (BReceive now rs frame) s o u
| rec_open o u now : recalls o u (BOpen now) ROk u u
| rec_compact o u k e s : recalls o u (BCompact k e) s o u.
Inductive remembers : uuid -> uuid -> list bevent -> list rstatus -> uuid -> uuid -> Prop :=
| rem_none o u : remembers o u [] [] o u
| rem_more o u e s o1 u1 es ss o2 u2 : recalls o u e s o1 u1 -> remembers o1 u1 es ss o2 u2 ->
    remembers o u (e :: es) (s :: ss) o2 u2.

(* clocks and their readings are 64-bit words *)
Definition clocks (e : bevent) : Prop :=
  match e with BReceive now rs _ => now < 2 ^ 64 /\ Forall (fun r => r < 2 ^ 64) rs | _ => True end.
(* the records of a branch whose tip record has the tip t: it is the newest one
   under Key::ZERO *)
Definition tip_record (d : family) (t : uuid) : Prop :=
  exists f pre, one_op t ZERO_FORM_UUID [] = Some f /\
    held (ce_value (cell_at d KEY_ZERO)) ++ ce_operands (cell_at d KEY_ZERO) = pre ++ [f].
(* an id the builder can write and the parser read, other than 1 (the op id
   that the text format leaves out at the start of a frame) *)
Definition tip_ok (t : uuid) : Prop := id_ok t /\ t <> inc NIL.
Definition tipped (d : family) (t : uuid) : Prop := in_order d /\ tip_ok t /\ tip_record d t.
(* a branch of the yarn of id: the tip record and the tip in memory are of the yarn *)
Definition healthy (id : uuid) (b : branch) (t : uuid) : Prop :=
  tipped (br_main b) t /\ tip_ok (br_tip b) /\ uorigin t = uorigin id /\ uorigin (br_tip b) = uorigin id.
Definition opened (e : bevent) (s : rstatus) : Prop := match e with BOpen _ => s = ROk | _ => True end.
(* the first event of a new branch: at time 0 or now *)
Definition first_event (active now : N) (rs : list N) (yarn : N) (transcendent : bool) : uuid :=
  if transcendent then uuid_time 0 yarn else snd (clock_now active now (hd 0 rs) yarn).
