(** A small group that satisfies the curve laws, so that the premises of the exchange theorems
    are met: the integers modulo 101, with x coordinate min(p, 101 - p). *)
From Verif Require Import Base ExchangeModel ExchangeSpec.
From Coq Require Import Znumtheory Eqdep_dec.
Open Scope Z_scope.

Definition tq : Z := 101.
Definition tpoint : Type := { z : Z | ((0 <=? z) && (z <? tq)) = true }.
Lemma tred_ok z : ((0 <=? z mod tq) && (z mod tq <? tq)) = true.
Proof. unfold tq. apply andb_true_iff. lia. Qed.
Definition tp (z : Z) : tpoint :=
  match Bool.bool_dec ((0 <=? z mod tq) && (z mod tq <? tq)) true with
  | left h => exist _ (z mod tq) h
  | right _ => exist _ 0 eq_refl
  end.
Definition tv (p : tpoint) : Z := proj1_sig p.

Lemma tv_range p : 0 <= tv p < tq.
Proof. destruct p as [z h]. cbn. apply andb_true_iff in h. lia. Qed.
Lemma tv_tp z : tv (tp z) = z mod tq.
Proof.
  unfold tp. destruct (Bool.bool_dec _ true) as [h|h]; [reflexivity|]. destruct (h (tred_ok z)).
Qed.
Lemma tv_inj p r : tv p = tv r -> p = r.
Proof.
  destruct p as [a ha], r as [b hb]. cbn. intros ->. f_equal.
  apply UIP_dec. apply Bool.bool_dec.
Qed.

Definition toy : Curve := mkCurve tpoint (tp 0)
  (fun p r => tp (tv p + tv r)) (fun p => tp (- tv p)) (fun a p => tp (a * tv p))
  (fun p r => tv p =? tv r) (tp 1) (tp 5) tq
  (fun p => Z.min (tv p) (tq - tv p)) (fun p => tv p <? 51).

Lemma prime_101 : prime 101.
Proof.
  apply prime_alt. split; [lia|]. intros n Hn D.
  assert (K : forall k : nat, (k < 99)%nat -> 101 mod (Z.of_nat k + 2) <> 0).
  { assert (F : forallb (fun k => negb (101 mod (Z.of_nat k + 2) =? 0)) (seq 0 99) = true)
      by (vm_compute; reflexivity).
    intros k Hk. rewrite forallb_forall in F. specialize (F k). rewrite in_seq in F.
    assert (F' := F ltac:(lia)). apply negb_true_iff, Z.eqb_neq in F'. exact F'. }
  apply (K (Z.to_nat (n - 2))); [lia|].
  replace (Z.of_nat (Z.to_nat (n - 2)) + 2) with n by lia.
  apply Zdivide_mod. exact D.
Qed.

Lemma toy_ok : curve_ok toy.
Proof.
  constructor; cbn [add neg mul zero point_eqb gen_g gen_h order xcoord quad_y point toy].
  - intros p r. f_equal. lia.
  - intros p r s. apply tv_inj. rewrite !tv_tp. rewrite Zplus_mod_idemp_r, Zplus_mod_idemp_l. f_equal. lia.
  - intros p. apply tv_inj. rewrite !tv_tp. pose proof (tv_range p). rewrite Z.mod_0_l by (unfold tq; lia).
    apply Z.mod_small. lia.
  - intros p. apply tv_inj. rewrite !tv_tp, Zplus_mod_idemp_r. f_equal. lia.
  - intros p. apply tv_inj. rewrite !tv_tp. pose proof (tv_range p). rewrite Z.mul_1_l. apply Z.mod_small. lia.
  - intros a b p. apply tv_inj. rewrite !tv_tp, <- Zplus_mod. f_equal. lia.
  - intros a b p. apply tv_inj. rewrite !tv_tp, Zmult_mod_idemp_r. f_equal. lia.
  - exact prime_101.
  - intros p. apply tv_inj. rewrite !tv_tp, Z.mul_comm, Z_mod_mult. reflexivity.
  - intros a E. apply (f_equal tv) in E. rewrite !tv_tp in E.
    replace (a * (1 mod tq)) with a in E by (change (1 mod tq) with 1; lia).
    apply Zmod_divide; [unfold tq; lia|]. exact E.
  - intros p r. split; [intros E; apply tv_inj, Z.eqb_eq; exact E|intros ->; apply Z.eqb_refl].
  - intros p. rewrite !tv_tp. pose proof (tv_range p). unfold tq in *. lia.
  - intros p Hp. rewrite !tv_tp. pose proof (tv_range p).
    assert (tv p <> 0) by (intros E; apply Hp, tv_inj; rewrite E; reflexivity). unfold tq in *. lia.
Qed.

(** A challenge and a kernel message for the examples. *)
Definition toy_challenge (r : Z) (p : tpoint) (m : Z) : Z := (7 * r + 3 * tv p + m + 1) mod tq.
Definition toy_message (fee : Z) : Z := 11 * fee + 2.
