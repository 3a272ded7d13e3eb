(** Specification for C52: slatepack addresses. *)
From Verif Require Import Base Bytes FileModel TextModel.
Local Open Scope N_scope.

(** The number written with the given digits, most significant first. *)
Definition value (base : N) (digits : list N) : N := fold_left (fun acc d => acc * base + d) digits 0.
(** [digits] are the bits of [data] in groups of five, with fewer than five zero bits added at the end. *)
Definition regrouped (data : bytes) (digits : list N) : Prop :=
  Forall (fun d => d < 32) digits /\
  exists pad, pad < 5 /\ 5 * nlen digits = 8 * nlen data + pad /\ value 32 digits = value 256 data * 2 ^ pad.

(** Lower and upper case of a text. *)
Definition lower (t : bytes) : bytes := map (fun c => if (65 <=? c) && (c <=? 90) then c + 32 else c) t.
Definition upper (t : bytes) : bytes := map (fun c => if (97 <=? c) && (c <=? 122) then c - 32 else c) t.
(** All letters of the text have the same case. *)
Definition one_case (t : bytes) : Prop := t = lower t \/ t = upper t.
Definition printable (t : bytes) : Prop := Forall (fun c => 33 <= c <= 126) t.

(** The number of places where two texts of one length differ, upper and lower case being the same. *)
Fixpoint differences (a b : list N) : nat :=
  match a, b with
  | x :: a', y :: b' => ((if (x =? y)%N then 0 else 1) + differences a' b')%nat
  | _, _ => 0%nat
  end.
