(** What is claimed of the sending of messages. *)
From Verif Require Import Base SocketModel.

(** Calls that do not overlap: a message is sent by one call from start to end, or the end of a write is handled. *)
Inductive whole := Send (t : nat) (m : message) (room : nat) | Sent (room : nat).
Definition events (w : whole) : list event := match w with Send t m room => [Check t m; Push t; Finish t room] | Sent room => [Pop; Next room] end.
Definition messages (l : list whole) : list message := flat_map (fun w => match w with Send _ m _ => [m] | Sent _ => [] end) l.
(** There is always room for the whole message. *)
Definition roomy (n : nat) (w : whole) : Prop := match w with Send _ m room => (length m <= room)%nat /\ (length m <= n)%nat | Sent room => (n <= room)%nat end.
Definition intact (m : message) : list wire_byte := map Some m.
