(** Specification for C09: a set of leaf numbers with commit and rollback. *)
From Verif Require Import Base MMRIndexSpec.
Local Open Scope N_scope.

Definition nset := N -> Prop.
Record bspec := mkB { saved : nset; now : nset }.

(** Leaf number [i] sits at MMR position [p] (post-order numbering, MMRIndexSpec). *)
Definition leaf_at (i p : N) : Prop := exists H, nth_error (leaf_positions (big_tree H)) (N.to_nat i) = Some p.

Inductive setop :=
| Insert (i : N) | Delete (i : N)
| Rewind (n : N) (add : list N)        (* put back [add], then drop everything at or above n *)
| Save | Restore
| InsertPositions (l : list N)          (* 1-based MMR positions; non-leaves are ignored *)
| DeletePositions (l : list N).

Definition set_step (s : bspec) (o : setop) : bspec :=
  match o with
  | Insert i => mkB (saved s) (fun j => j = i \/ now s j)
  | Delete i => mkB (saved s) (fun j => j <> i /\ now s j)
  | Rewind n add => mkB (saved s) (fun j => (In j add \/ now s j) /\ j < n)
  | Save => mkB (now s) (now s)
  | Restore => mkB (saved s) (saved s)
  | InsertPositions l => mkB (saved s) (fun j => (exists v, In v l /\ leaf_at j (v - 1)) \/ now s j)
  | DeletePositions l => mkB (saved s) (fun j => ~ (exists v, In v l /\ leaf_at j (v - 1)) /\ now s j)
  end.
Definition set_run (s : bspec) (l : list setop) : bspec := fold_left set_step l s.

(** Roaring bitmaps hold 32-bit positions counted from 1. *)
Definition setop_ok (o : setop) : Prop :=
  match o with
  | InsertPositions l | DeletePositions l => Forall (fun v => 1 <= v < W32) l
  | _ => True
  end.

(** Bit [i] (counted from the most significant bit of each byte) of a byte string. *)
Definition bit_of (f : list N) (i : N) : bool := N.testbit (nth (N.to_nat (i / 8)) f 0) (7 - i mod 8).
