(** Shared definitions: machine integers as [N] with explicit wrap-around, outcomes of
    C++ calls, and tactics. *)
From Coq Require Export List NArith ZArith Lia Bool Arith.
From Coq Require Export ZifyBool ZifyNat ZifyN.
Export ListNotations.

Ltac Zify.zify_post_hook ::= Z.div_mod_to_equations.

(** Outcome of a C++ call.
    [Ret a]   normal return;
    [Throw]   a C++ exception;
    [Fault]   undefined behaviour or a failed [assert] (the program has no defined result). *)
Inductive outcome (A : Type) : Type :=
| Ret (a : A)
| Throw
| Fault.
Arguments Ret {A} a.
Arguments Throw {A}.
Arguments Fault {A}.

Definition obind {A B} (o : outcome A) (f : A -> outcome B) : outcome B :=
  match o with Ret a => f a | Throw => Throw | Fault => Fault end.
Definition omap {A B} (f : A -> B) (o : outcome A) : outcome B :=
  match o with Ret a => Ret (f a) | Throw => Throw | Fault => Fault end.
Notation "'let*' x ':=' e 'in' k" := (obind e (fun x => k))
  (at level 200, x pattern, e at level 100, k at level 200).

(** 2^64, 2^32, ... as numerals so that [lia] sees constants. *)
Notation W64 := 18446744073709551616%N.
Notation W32 := 4294967296%N.
Notation W16 := 65536%N.
Notation W8 := 256%N.

(** uint64_t arithmetic (arguments are expected to be < 2^64). *)
Definition add64 (a b : N) : N := (a + b) mod W64.
Definition sub64 (a b : N) : N := (a + (W64 - b)) mod W64.
Definition mul64 (a b : N) : N := (a * b) mod W64.

Lemma add64_small a b : (a + b < W64)%N -> add64 a b = (a + b)%N.
Proof. intros H; unfold add64; apply N.mod_small; exact H. Qed.

Lemma sub64_small a b : (b <= a)%N -> (a < W64)%N -> sub64 a b = (a - b)%N.
Proof. intros H1 H2; unfold sub64. lia. Qed.

Lemma mul64_small a b : (a * b < W64)%N -> mul64 a b = (a * b)%N.
Proof. intros H; unfold mul64; apply N.mod_small; exact H. Qed.

Lemma pow2_64 : (2 ^ 64 = W64)%N. Proof. reflexivity. Qed.

Arguments N.add : simpl never.
Arguments N.sub : simpl never.
Arguments N.mul : simpl never.
Arguments N.pow : simpl never.
Arguments N.div : simpl never.
Arguments N.modulo : simpl never.
Arguments N.shiftr : simpl never.
Arguments N.shiftl : simpl never.
Arguments N.lor : simpl never.
Arguments N.land : simpl never.
Arguments N.eqb : simpl never.
Arguments N.ltb : simpl never.
Arguments N.leb : simpl never.
