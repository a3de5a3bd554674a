(* The index over an LWW object: rdt/lww_obj.hpp, for text frames. *)
From Verif Require Import Prelude UuidModel KeyModel CodecModel TextModel MergeModel HashModel CompareModel ReplicaModel.

Section Index.
Variable fbits : bytes -> N.   (* strtod *)
Variable fuel : nat.           (* a bound on the turns of every loop *)

(* a parsed atom, as Cursor::atom gives it: ron/text.hpp:48-62, 121-126. A number
   has its value; a string is still a range of the buffer it was parsed from. *)
Inductive patom : Set :=
| PUuid (u : uuid)
| PInt (z : Z)
| PStr (cp n b e : N)
| PFloat (w : N).
Definition parse_atom (buf : bytes) (a : atom) : res patom :=
  match a with
  | AUuid u => Done (PUuid u)
  | AInt b e => Done (PInt (parse_integer (sub buf b e)))
  | AStr cp n b e => Done (if cp =? 0 then PStr cp n b e else PStr cp 0 0 0)
  | AFloat b e => if atom_reads buf a then Done (PFloat (fbits (sub buf b e))) else Aborted
  end.
(* rdt/lww_obj.hpp:13-15: the buffer of cur_; vals_, an unordered_map, as a list
   in which only the first entry of a key counts; last_ *)
Record lobj : Set := mkObj { lo_buf : bytes; lo_vals : list (uuid * patom); lo_last : uuid }.
(* 18-24 Update(Cursor) *)
Definition obj_op (o : lobj) (c : cursor) : res lobj :=
  match c_op c with
  | _ :: _ :: AUuid k :: v :: _ =>
      rbind (parse_atom (c_buf c) v) (fun p => Done (mkObj (lo_buf o) ((k, p) :: lo_vals o) (op_id (c_op c))))
  | _ => Done o
  end.
(* 28-30 and 36-38: while (c.Next()); a syntax error ends the loop like the end
   of the frame *)
Fixpoint obj_loop (m : nat) (o : lobj) (c : cursor) : res lobj :=
  match m with
  | O => Fuel
  | S k =>
      match next c with
      | NAbort => Aborted
      | NEnd _ | NBad _ => Done o
      | NOk c' => rbind (obj_op o c') (fun o' => obj_loop k o' c')
      end
  end.
(* 26-31 Update(Frame) *)
Definition obj_update (o : lobj) (f : bytes) : res lobj := obj_loop fuel o (cursor_of f).
(* 35-39 LWWObject(Frame); the cursor has no op at first, so that the first
   Update returns at once *)
Definition obj_new (f : bytes) : res lobj := obj_update (mkObj f [] NIL) f.

(* 41-45 Write: last_ is set before it is used *)
Definition obj_write (o : lobj) (id k : uuid) (vals : list value) : lobj * option bytes :=
  (mkObj (lo_buf o) (lo_vals o) id, one_op id id (VUuid k :: vals)).

Definition obj_find (o : lobj) (k : uuid) : option patom := option_map snd (find (fun p => uuid_eqb (fst p) k) (lo_vals o)).
(* 60 uuid, with 47-53 atom *)
Definition obj_uuid (o : lobj) (k : uuid) : uuid := match obj_find o k with Some (PUuid u) => u | _ => NIL end.
(* 62-65 number: None for NaN. The integer the double is made from; the rounding
   of the conversion is left out. *)
Definition obj_number (o : lobj) (k : uuid) : option Z :=
  match obj_find o k with
  | Some (PFloat w) => Some (if w <? 2 ^ 63 then Z.of_N w else (Z.of_N w - 2 ^ 64)%Z)
  | _ => None
  end.
(* 67-72 string, with ron/frames.hpp:125-137 ReadString and ron/cp-parser.cc:21-26:
   a field that is not a string fails the assert there (a build without asserts
   gives an empty string); the range is taken of the buffer of cur_, whatever buffer it was parsed from *)
Definition obj_string (o : lobj) (k : uuid) : res bytes :=
  match obj_find o k with
  | Some (PStr cp n b e) =>
      if (cp =? 0) && negb (n =? 0) && (N.of_nat (length (lo_buf o)) <? e) then Aborted
      else Done (read_string (lo_buf o) cp n b e)
  | _ => Aborted
  end.
End Index.
