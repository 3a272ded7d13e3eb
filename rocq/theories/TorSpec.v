(** What an onion address is, independently of the code: the 35 bytes key, checksum and version as one number, written in base 32. *)
From Verif Require Import Base.
Local Open Scope N_scope.

(** The number written by digits, most significant first. *)
Definition number (base : N) (digits : list N) : N := fold_left (fun n d => n * base + d) digits 0.
Definition is_byte (b : N) : Prop := b < 256.
(** The digit that a character of an address stands for: a-z and A-Z for 0 to 25, 2-7 for 26 to 31. *)
Definition stands_for (c d : N) : Prop :=
  (d < 26 /\ (c = 97 + d \/ c = 65 + d)) \/ (26 <= d < 32 /\ c = 50 + (d - 26)).
Definition lower_case (c : N) : Prop := ~ (65 <= c <= 90).
(** [text] spells [bytes]. *)
Definition spells (text bytes : list N) : Prop :=
  exists digits, Forall2 stands_for text digits /\ number 32 digits = number 256 bytes.
