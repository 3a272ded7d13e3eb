(** What synchronization is about. *)
From Verif Require Import Base Bytes SyncModel.
Local Open Scope N_scope.

(** A peer with more work than all others that told a height; among equal ones, the highest. *)
Definition best_peer (l : list conn) (c : conn) : Prop :=
  In c l /\ 0 < c_height c /\ forall d, In d l -> 0 < c_height d -> c_difficulty d < c_difficulty c \/ (c_difficulty d = c_difficulty c /\ c_height d <= c_height c).
(** A node that has caught up with the network is less than five blocks behind; when it starts, it must not be behind at all. *)
Definition caught_up (once : bool) (own network : N) : Prop := if once then network < own + 5 else network <= own.
(** A block at this height has been asked for, and the answer is not overdue. *)
Definition outstanding (w : world) (m : requests) (height : N) : Prop := exists r, rfind m height = Some r /\ (w_now w <= rq_timeout r)%Z.
(** The blocks asked for, and how many were asked from a peer. *)
Fixpoint asked (a : list action) : list bytes := match a with [] => [] | ABlock _ hash :: a' => hash :: asked a' | _ :: a' => asked a' end.
Fixpoint asked_from (p : N) (a : list action) : nat :=
  match a with [] => O | ABlock q _ :: a' => if q =? p then S (asked_from p a') else asked_from p a' | _ :: a' => asked_from p a' end.
