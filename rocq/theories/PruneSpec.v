(** Specification of pruning (C07): what is dropped from the files, independent of shifts. *)
From Coq Require Import Sorted.
From Verif Require Import Base MMRIndexSpec.
Local Open Scope N_scope.

(** Position [q] lies strictly below position [r] in the MMR. *)
Definition descendant (r q : N) : Prop :=
  exists H s, subtree s (big_tree H) /\ root_pos s = r /\ In q (positions s) /\ q <> r.

(** A list of pruned roots for an MMR with [size] positions: increasing, inside, no one below another. *)
Definition valid_roots (roots : list N) (size : N) : Prop :=
  StronglySorted N.lt roots /\ Forall (fun r => r < size) roots /\
  forall r1 r2, In r1 roots -> In r2 roots -> ~ descendant r1 r2.

(** Exactly the positions strictly below a pruned root are gone. *)
Definition gone_iff (roots : list N) (gone : N -> bool) : Prop :=
  forall q, gone q = true <-> exists r, In r roots /\ descendant r q.

(** A file with the records at the gone indices left out ([i] is the index of the first record). *)
Fixpoint keep {A} (gone : N -> bool) (i : N) (l : list A) : list A :=
  match l with
  | [] => []
  | x :: l' => if gone i then keep gone (i + 1) l' else x :: keep gone (i + 1) l'
  end.
