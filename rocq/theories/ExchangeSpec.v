(** What the exchange must achieve, stated without the wallet's functions. *)
From Verif Require Import Base ExchangeModel.
From Coq Require Import Znumtheory.
Open Scope Z_scope.

(** The group laws the curve library provides: a commutative group of prime order with a
    generator, multiplication by integers, and coordinates under which a point and its negative
    have the same x while exactly one of the two has a square y. *)
Record curve_ok (C : Curve) : Prop := {
  ok_comm : forall p q, add C p q = add C q p;
  ok_assoc : forall p q r, add C p (add C q r) = add C (add C p q) r;
  ok_zero : forall p, add C (zero C) p = p;
  ok_neg : forall p, add C p (neg C p) = zero C;
  ok_mul_one : forall p, mul C 1 p = p;
  ok_mul_add : forall a b p, mul C (a + b) p = add C (mul C a p) (mul C b p);
  ok_mul_mul : forall a b p, mul C (a * b) p = mul C a (mul C b p);
  ok_prime : prime (order C);
  ok_order : forall p, mul C (order C) p = zero C;
  ok_gen : forall a, mul C a (gen_g C) = zero C -> (order C | a);
  ok_eqb : forall p q, point_eqb C p q = true <-> p = q;
  ok_x : forall p, xcoord C (neg C p) = xcoord C p;
  ok_quad : forall p, p <> zero C -> quad_y C (neg C p) = negb (quad_y C p)
}.

Section Spec.
Variable C : Curve.
Variable challenge : Z -> point C -> Z -> Z.
Variable kernel_message : Z -> Z.

(** A Schnorr signature (r, s) on [msg] under the public key [key]. *)
Definition signature_valid (key : point C) (msg : Z) (sig : Z * Z) : Prop :=
  exists R : point C,
    R <> zero C /\ xcoord C R = fst sig /\ quad_y C R = true /\
    mul C (snd sig) (gen_g C) = add C R (mul C (challenge (fst sig) key msg) key).

(** Outputs plus fee are inputs plus kernel excess plus offset. *)
Definition balanced (tx : ExTx C) : Prop :=
  add C (fold_right (add C) (zero C) (e_outputs C tx)) (mul C (e_fee C tx) (gen_h C)) =
  add C (add C (fold_right (add C) (zero C) (e_inputs C tx)) (e_excess C tx))
        (mul C (e_offset C tx) (gen_g C)).

(** What every node checks of the kernel. *)
Definition kernel_accepted (tx : ExTx C) : Prop :=
  e_excess C tx <> zero C /\
  signature_valid (e_excess C tx) (kernel_message (e_fee C tx)) (e_sig C tx) /\
  balanced tx.

Definition total_value (l : list coin) : Z := fold_right (fun c n => c_value c + n) 0 l.
Definition total_blind (l : list coin) : Z := fold_right (fun c n => c_blind c + n) 0 l.

(** Every nonce signs at most one triple. *)
Definition nonce_of (e : ex_event C) : option (Z * (Z * point C * Z)) :=
  match e with
  | Sent _ _ _ => None
  | Received _ n m => Some (n, m)
  | Finalized _ _ n m => Some (n, m)
  end.
Definition nonces_once (l : list (ex_event C)) : Prop :=
  forall e1 e2 n m1 m2, In e1 l -> In e2 l ->
    nonce_of e1 = Some (n, m1) -> nonce_of e2 = Some (n, m2) -> m1 = m2.

(** The nonces drawn in a run, and the slates finalized in it. *)
Definition drawn (l : list (ex_event C)) : list Z :=
  flat_map (fun e => match e with
                     | Sent _ _ n => [n] | Received _ n _ => [n] | Finalized _ _ _ _ => [] end) l.
Definition finalized (l : list (ex_event C)) : list Z :=
  flat_map (fun e => match e with Finalized _ i _ _ => [i] | _ => [] end) l.

End Spec.
