(** What is said about key paths, independently of how they are computed. *)
From Coq Require Import Ascii String.
From Verif Require Import Base Bytes TextSpec.
Local Open Scope N_scope.
Local Open Scope list_scope.

(** the usual decimal numeral of a number *)
Definition decimal (n : N) (s : bytes) : Prop :=
  exists ds, Forall2 (digit_in (text "0123456789")) s ds /\ radix 10 ds = n /\ (ds = [0] \/ (ds <> [] /\ no_leading_zero ds)).

(** m/1/2/3 *)
Inductive path_parts : bytes -> list N -> Prop :=
| parts_none : path_parts [] []
| parts_more i d s is : decimal i d -> path_parts s is -> path_parts (text "/" ++ d ++ s) (i :: is).
Definition path_text (s : bytes) (p : list N) : Prop := exists rest, s = text "m" ++ rest /\ path_parts rest p.

(** an index fits in 32 bits *)
Definition index32 (i : N) : Prop := i < 4294967296.
