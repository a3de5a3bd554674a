(* Specification of the garbage collection of last-write-wins frames. *)
From Verif Require Import Prelude UuidModel UuidSpec TextModel BuilderSpec.

(* an op that sets a key *)
Definition sets (o : rop) : bool := match r_vals o with [] => false | _ => true end.
(* the range of bytes of the frame that stands for the key of an op: the two
   halves of the origin of the key. None: no such range; any key but a UUID is
   beyond the end of every frame of less than 2^30 bytes *)
Definition key_part (f : bytes) (o : rop) : option bytes :=
  match r_vals o with
  | VUuid u :: _ =>
      let b := uorigin u mod 2 ^ 32 in let e := uorigin u / 2 ^ 32 in
      if (b <=? e) && (e <=? N.of_nat (length f)) then Some (firstn (N.to_nat (e - b)) (skipn (N.to_nat b) f)) else None
  | _ => None
  end.
(* the last op of the list that is taken for a write of the key k *)
Fixpoint last_write (f : bytes) (k : bytes) (ops : list rop) (found : option uuid) : option uuid :=
  match ops with
  | [] => found
  | o :: r => last_write f k r (match key_part f o with
                                | Some k' => if list_eq_dec N.eq_dec k' k then Some (r_id o) else found
                                | None => found
                                end)
  end.
(* the ops kept *)
Definition kept (f : bytes) (ops : list rop) (o : rop) : bool :=
  match key_part f o with
  | Some k => match last_write f k ops None with Some u => uuid_eqb u (r_id o) | None => false end
  | None => false
  end.

(* a key that is a name, not scoped *)
Definition plain_key (o : rop) : Prop := match r_vals o with [] => True | VUuid u :: _ => uorigin u = 0 | _ => False end.
(* the key an op sets and the last op that sets it, as a user understands them *)
Definition key_of (o : rop) : option value := match r_vals o with [] => None | v :: _ => Some v end.
