(** Proofs for the exchange: group algebra, signing keys, signatures, sums, nonces. *)
From Verif Require Import Base ExchangeModel ExchangeSpec.
From Coq Require Import Znumtheory Permutation.
Open Scope Z_scope.

Section Algebra.
Variable C : Curve.
Hypothesis ok : curve_ok C.

Notation "0p" := (zero C).
Notation G := (gen_g C).
Notation H := (gen_h C).
Notation q := (order C).
Infix "++p" := (add C) (at level 50, left associativity).

Lemma order_pos : 1 < q.
Proof. destruct (ok_prime C ok) as [h _]; exact h. Qed.

Lemma add_zero_r p : p ++p 0p = p.
Proof. rewrite (ok_comm C ok). apply (ok_zero C ok). Qed.

Lemma add_cancel p a b : p ++p a = p ++p b -> a = b.
Proof.
  intros E.
  rewrite <- (ok_zero C ok a), <- (ok_zero C ok b), <- (ok_neg C ok p), (ok_comm C ok p (neg C p)),
    <- !(ok_assoc C ok), E. reflexivity.
Qed.

Lemma mul_0 p : mul C 0 p = 0p.
Proof.
  apply (add_cancel (mul C 0 p)). rewrite <- (ok_mul_add C ok), add_zero_r. reflexivity.
Qed.

Lemma mul_zero a : mul C a 0p = 0p.
Proof. rewrite <- (mul_0 G) at 1. rewrite <- (ok_mul_mul C ok), Z.mul_0_r. apply mul_0. Qed.

Lemma neg_unique p r : p ++p r = 0p -> neg C p = r.
Proof. intros E. apply (add_cancel p). rewrite (ok_neg C ok). symmetry; exact E. Qed.

Lemma neg_mul a p : neg C (mul C a p) = mul C (- a) p.
Proof.
  apply neg_unique. rewrite <- (ok_mul_add C ok), Z.add_opp_diag_r. apply mul_0.
Qed.

Lemma mul_mod a p : mul C (a mod q) p = mul C a p.
Proof.
  pose proof order_pos as Hq.
  rewrite (Z.div_mod a q) at 2 by lia.
  rewrite (ok_mul_add C ok), (ok_mul_mul C ok), (ok_order C ok), (ok_zero C ok). reflexivity.
Qed.

Lemma mul_eq a b p : a mod q = b mod q -> mul C a p = mul C b p.
Proof. intros E. rewrite <- (mul_mod a), <- (mul_mod b), E. reflexivity. Qed.

Lemma mul_g_nonzero a : a mod q <> 0 -> mul C a G <> 0p.
Proof.
  intros E K. apply E. apply Zdivide_mod. apply (ok_gen C ok). exact K.
Qed.

Lemma small_nonzero a : 0 < a < q -> a mod q <> 0.
Proof. intros h. rewrite Z.mod_small by lia. lia. Qed.

Lemma opp_nonzero a : a mod q <> 0 -> (- a) mod q <> 0.
Proof.
  intros h K. apply h. pose proof order_pos.
  apply Zdivide_mod. apply Zmod_divide in K; [|lia].
  destruct K as [c Hc]. exists (- c). lia.
Qed.

Lemma eqb_refl p : point_eqb C p p = true.
Proof. apply (ok_eqb C ok). reflexivity. Qed.
Lemma eqb_false p r : p <> r -> point_eqb C p r = false.
Proof.
  intros h. destruct (point_eqb C p r) eqn:E; [|reflexivity].
  apply (ok_eqb C ok) in E. contradiction.
Qed.

(** Linear combinations of the two generators. *)
Lemma commit_add a b c d :
  commit_point C a b ++p commit_point C c d = commit_point C (a + c) (b + d).
Proof.
  unfold commit_point. rewrite !(ok_mul_add C ok).
  rewrite <- !(ok_assoc C ok). f_equal.
  rewrite !(ok_assoc C ok). f_equal. apply (ok_comm C ok).
Qed.
Lemma commit_neg a b : neg C (commit_point C a b) = commit_point C (- a) (- b).
Proof.
  apply neg_unique. rewrite commit_add, !Z.add_opp_diag_r.
  unfold commit_point. rewrite !mul_0. apply (ok_zero C ok).
Qed.
Lemma commit_zero_value b : commit_point C 0 b = mul C b G.
Proof. unfold commit_point. rewrite mul_0. apply (ok_zero C ok). Qed.
Lemma commit_zero_blind a : commit_point C a 0 = mul C a H.
Proof. unfold commit_point. rewrite mul_0. apply add_zero_r. Qed.
Lemma commit_zero : commit_point C 0 0 = 0p.
Proof. rewrite commit_zero_value. apply mul_0. Qed.

Lemma psum_app l m : psum C (l ++ m) = psum C l ++p psum C m.
Proof.
  induction l as [|x l IH]; simpl; [symmetry; apply (ok_zero C ok)|].
  rewrite IH. apply (ok_assoc C ok).
Qed.
Lemma psum_commits l :
  psum C (map (c_commit C) l) = commit_point C (total_value l) (total_blind l).
Proof.
  induction l as [|c l IH]; simpl; [symmetry; apply commit_zero|].
  rewrite IH. unfold c_commit at 1. apply commit_add.
Qed.
Lemma psum_two p r : psum C [p; r] = p ++p r.
Proof. simpl. rewrite add_zero_r. reflexivity. Qed.
Lemma psum_one p : psum C [p] = p.
Proof. simpl. apply add_zero_r. Qed.

Lemma total_value_app l m : total_value (l ++ m) = total_value l + total_value m.
Proof. unfold total_value. induction l as [|c l IH]; simpl; [reflexivity|]. rewrite IH. lia. Qed.
Lemma total_blind_app l m : total_blind (l ++ m) = total_blind l + total_blind m.
Proof. unfold total_blind. induction l as [|c l IH]; simpl; [reflexivity|]. rewrite IH. lia. Qed.
Lemma zsum_blinds l : zsum (map c_blind l) = total_blind l.
Proof. unfold total_blind. induction l as [|c l IH]; simpl; [reflexivity|]. rewrite IH. reflexivity. Qed.

(** ** Blinding factor sums and signing keys *)
Lemma zsum_filter l : zsum (filter (fun b => negb (b =? 0)) l) = zsum l.
Proof.
  induction l as [|x l IH]; simpl; [reflexivity|].
  destruct (x =? 0) eqn:E; simpl; rewrite IH; lia.
Qed.

Lemma blind_sum_spec p n r : AddBlindingFactors C p n = Ret r ->
  r = (zsum p - zsum n) mod q /\ 0 <= r < q.
Proof.
  unfold AddBlindingFactors. pose proof order_pos as Hq.
  rewrite <- (zsum_filter p), <- (zsum_filter n).
  destruct (filter _ p) as [|a p'] eqn:Ep; destruct (filter _ n) as [|b n'] eqn:En; cbv zeta beta iota;
    try (destruct (forallb _ _); [|discriminate]); intros E;
    assert (E' := f_equal (fun o => match o with Ret z => z | _ => 0 end) E); cbv beta iota in E';
    subst r; (split; [|try apply Z.mod_pos_bound; lia]); try reflexivity.
Qed.

Lemma public_key_spec k p : CalculatePublicKey C k = Ret p -> p = mul C k G /\ 0 < k < q.
Proof.
  unfold CalculatePublicKey. destruct ((0 <? k) && (k <? q)) eqn:E; [|discriminate].
  intros K. apply andb_true_iff in E. split; [|lia].
  assert (K' := f_equal (fun o => match o with Ret z => z | _ => 0p end) K). symmetry; exact K'.
Qed.
Lemma public_key_ok k : 0 < k < q -> CalculatePublicKey C k = Ret (mul C k G).
Proof.
  intros h. unfold CalculatePublicKey.
  replace ((0 <? k) && (k <? q)) with true by (symmetry; apply andb_true_iff; lia). reflexivity.
Qed.

Lemma obind_ret {A B} (o : outcome A) (f : A -> outcome B) b :
  obind o f = Ret b -> exists a, o = Ret a /\ f a = Ret b.
Proof. destruct o; simpl; intros E; try discriminate. eauto. Qed.

Lemma signing_keys_spec ins outs off nonce k :
  CalculateSigningKeys C ins outs off nonce = Ret k ->
  secret_key C k = (total_blind outs - total_blind ins - off) mod q /\
  0 < secret_key C k < q /\
  public_key C k = mul C (secret_key C k) G /\
  secret_nonce C k = nonce /\ 0 < nonce < q /\
  public_nonce C k = mul C nonce G.
Proof.
  unfold CalculateSigningKeys. intros E.
  apply obind_ret in E; destruct E as [a [Ea E]].
  apply obind_ret in E; destruct E as [b [Eb E]].
  apply obind_ret in E; destruct E as [c [Ec E]].
  apply obind_ret in E; destruct E as [d [Ed E]].
  apply obind_ret in E; destruct E as [p [Ep E]].
  apply obind_ret in E; destruct E as [r [Er E]].
  apply blind_sum_spec in Ea; apply blind_sum_spec in Eb; apply blind_sum_spec in Ec;
    apply blind_sum_spec in Ed. apply public_key_spec in Ep. apply public_key_spec in Er.
  assert (E' : k = mkKeys C d p nonce r)
    by (assert (K := f_equal (fun o => match o with Ret z => z | _ => k end) E); symmetry; exact K).
  subst k; cbn [secret_key public_key secret_nonce public_nonce].
  rewrite zsum_blinds in Ea, Eb. cbn [zsum fold_right] in Ea, Eb, Ec, Ed.
  repeat split; try tauto; try lia.
  destruct Ed as [Ed _], Ec as [Ec _], Eb as [Eb _], Ea as [Ea _].
  rewrite Ed, Ec, Eb, Ea.
  pose proof order_pos.
  rewrite !Z.sub_0_r, !Z.add_0_r.
  rewrite <- Zminus_mod, Zminus_mod_idemp_l. reflexivity.
Qed.

Lemma keys_sum_spec l p : AddPublicKeys C l = Ret p -> p = psum C l /\ p <> 0p.
Proof.
  unfold AddPublicKeys. destruct (point_eqb C (psum C l) 0p) eqn:E; [discriminate|].
  intros K. assert (K' := f_equal (fun o => match o with Ret z => z | _ => 0p end) K). cbv beta iota in K'.
  subst p. split; [reflexivity|]. intros Z0. rewrite Z0, eqb_refl in E. discriminate.
Qed.
Lemma keys_sum_ok l : psum C l <> 0p -> AddPublicKeys C l = Ret (psum C l).
Proof. intros h. unfold AddPublicKeys. rewrite eqb_false by exact h. reflexivity. Qed.

(** ** Signatures *)
Variable challenge : Z -> point C -> Z -> Z.

Definition signed_nonce (R : point C) (k : Z) : Z := if quad_y C R then k else - k.

Lemma signed_nonce_nonzero R k : 0 < k < q -> (signed_nonce R k) mod q <> 0.
Proof.
  intros h. unfold signed_nonce. destruct (quad_y C R); [|apply opp_nonzero];
    apply small_nonzero; exact h.
Qed.

Lemma xcoord_signed R k : xcoord C (mul C (signed_nonce R k) G) = xcoord C (mul C k G).
Proof.
  unfold signed_nonce. destruct (quad_y C R); [reflexivity|].
  rewrite <- neg_mul. apply (ok_x C ok).
Qed.

Lemma partial_value x k P R m sig :
  CalculatePartialSignature C challenge x k P R m = Ret sig ->
  sig = (xcoord C (mul C k G),
         (signed_nonce R k + challenge (xcoord C R) P m * x) mod q).
Proof.
  unfold CalculatePartialSignature, signed_nonce. destruct (is_scalar C x); [|discriminate].
  intros K. assert (K' := f_equal (fun o => match o with Ret z => z | _ => sig end) K).
  symmetry; exact K'.
Qed.
Lemma partial_total x k P R m : 0 < x < q ->
  CalculatePartialSignature C challenge x k P R m =
  Ret (xcoord C (mul C k G), (signed_nonce R k + challenge (xcoord C R) P m * x) mod q).
Proof.
  intros h. unfold CalculatePartialSignature, is_scalar.
  replace ((0 <=? x) && (x <? q)) with true by (symmetry; apply andb_true_iff; lia).
  reflexivity.
Qed.

Lemma sig_point s e x : mul C s G ++p neg C (mul C e (mul C x G)) = mul C (s - e * x) G.
Proof.
  rewrite <- (ok_mul_mul C ok), neg_mul, <- (ok_mul_add C ok). f_equal.
Qed.

Lemma partial_verifies x k P R m :
  0 < k < q ->
  VerifyPartialSignature C challenge
    (xcoord C (mul C k G), (signed_nonce R k + challenge (xcoord C R) P m * x) mod q)
    (mul C x G) P R m = true.
Proof.
  intros hk. unfold VerifyPartialSignature. cbn [fst snd].
  set (e := challenge (xcoord C R) P m).
  rewrite sig_point.
  assert (E : mul C ((signed_nonce R k + e * x) mod q - e * x) G = mul C (signed_nonce R k) G).
  { apply mul_eq. rewrite Zminus_mod_idemp_l. f_equal. lia. }
  rewrite E, eqb_false by (apply mul_g_nonzero; apply signed_nonce_nonzero; exact hk).
  rewrite xcoord_signed. simpl. apply Z.eqb_refl.
Qed.

Lemma aggregate_verifies x y k l R P m :
  R = mul C (k + l) G -> R <> 0p -> P = mul C (x + y) G ->
  let e := challenge (xcoord C R) P m in
  let s := ((signed_nonce R k + e * x) mod q + ((signed_nonce R l + e * y) mod q + 0)) mod q in
  VerifyAggregateSignature C challenge (xcoord C R, s) P m = true /\
  signature_valid C challenge P m (xcoord C R, s).
Proof.
  intros HR Hn HP e s.
  assert (E : mul C (s - e * (x + y)) G = mul C (signed_nonce R (k + l)) G).
  { apply mul_eq. unfold s. rewrite Zminus_mod_idemp_l.
    rewrite Z.add_0_r.
    rewrite <- (Zminus_mod_idemp_l (_ + _)), <- Zplus_mod, Zminus_mod_idemp_l.
    f_equal. unfold signed_nonce. destruct (quad_y C R); lia. }
  assert (F : mul C (signed_nonce R (k + l)) G <> 0p /\
              xcoord C (mul C (signed_nonce R (k + l)) G) = xcoord C R /\
              quad_y C (mul C (signed_nonce R (k + l)) G) = true).
  { unfold signed_nonce. destruct (quad_y C R) eqn:Q.
    - rewrite <- HR. auto.
    - rewrite <- neg_mul, <- HR. split; [|split].
      + intros Z0. apply Hn. rewrite <- (ok_neg C ok R), Z0, add_zero_r. reflexivity.
      + apply (ok_x C ok).
      + rewrite (ok_quad C ok) by exact Hn. rewrite Q. reflexivity. }
  destruct F as [F1 [F2 F3]]. split.
  - unfold VerifyAggregateSignature. cbn [fst snd]. fold e.
    rewrite HP, sig_point, E, eqb_false by exact F1. rewrite F2, F3, Z.eqb_refl. reflexivity.
  - exists (mul C (signed_nonce R (k + l)) G). cbn [fst snd]. fold e.
    repeat split; auto.
    rewrite <- E, HP, <- (ok_mul_mul C ok), <- (ok_mul_add C ok). f_equal. lia.
Qed.

(** ** Commitments of a slate *)
Lemma add_input_new c l : ~ In c (map (k_commit C) l) -> AddInput C c l = l ++ [mkCom C c false].
Proof.
  intros h. unfold AddInput. destruct (existsb _ l) eqn:E; [|reflexivity].
  exfalso; apply h. apply existsb_exists in E. destruct E as [k [Hk E]].
  apply (ok_eqb C ok) in E. apply in_map_iff. exists k; auto.
Qed.
Lemma add_input_same c l : In c (map (k_commit C) l) -> AddInput C c l = l.
Proof.
  intros h. unfold AddInput. destruct (existsb _ l) eqn:E; [reflexivity|].
  apply in_map_iff in h. destruct h as [k [Hk h]].
  assert (K : existsb (fun k => point_eqb C (k_commit C k) c) l = true).
  { apply existsb_exists. exists k. split; [exact h|]. apply (ok_eqb C ok). exact Hk. }
  rewrite K in E. discriminate.
Qed.
Lemma add_output_new c l : ~ In c (map (k_commit C) l) -> AddOutput C c l = l ++ [mkCom C c true].
Proof.
  induction l as [|k l IH]; intros h; [reflexivity|]. simpl in *.
  rewrite eqb_false by (intros E; apply h; left; exact E).
  rewrite IH by tauto. reflexivity.
Qed.
Lemma add_output_same c l :
  NoDup (map (k_commit C) l) -> In (mkCom C c true) l -> AddOutput C c l = l.
Proof.
  induction l as [|k l IH]; intros hn h; [contradiction|]. simpl in *.
  inversion hn as [|? ? hk hn']; subst.
  destruct h as [h|h].
  - subst k. cbn [k_commit]. rewrite eqb_refl. reflexivity.
  - rewrite eqb_false; [rewrite IH; auto|].
    intros E. apply hk. rewrite E. apply in_map_iff. exists (mkCom C c true); auto.
Qed.

Lemma add_inputs_new cs : forall l, NoDup (map (k_commit C) l ++ map (c_commit C) cs) ->
  add_inputs C cs l = l ++ map (fun c => mkCom C (c_commit C c) false) cs.
Proof.
  unfold add_inputs. induction cs as [|c cs IH]; intros l h; simpl; [rewrite app_nil_r; reflexivity|].
  simpl in h. rewrite add_input_new.
  2:{ intros K. apply NoDup_remove_2 in h. apply h. apply in_or_app; left; exact K. }
  rewrite IH; [rewrite <- app_assoc; reflexivity|].
  rewrite map_app. simpl. rewrite <- app_assoc. exact h.
Qed.
Lemma add_outputs_new cs : forall l, NoDup (map (k_commit C) l ++ map (c_commit C) cs) ->
  add_outputs C cs l = l ++ map (fun c => mkCom C (c_commit C c) true) cs.
Proof.
  unfold add_outputs. induction cs as [|c cs IH]; intros l h; simpl; [rewrite app_nil_r; reflexivity|].
  simpl in h. rewrite add_output_new.
  2:{ intros K. apply NoDup_remove_2 in h. apply h. apply in_or_app; left; exact K. }
  rewrite IH; [rewrite <- app_assoc; reflexivity|].
  rewrite map_app. simpl. rewrite <- app_assoc. exact h.
Qed.
Lemma add_inputs_same cs l :
  (forall c, In c cs -> In (c_commit C c) (map (k_commit C) l)) -> add_inputs C cs l = l.
Proof.
  unfold add_inputs. induction cs as [|c cs IH]; intros h; simpl; [reflexivity|].
  rewrite add_input_same by (apply h; left; reflexivity). apply IH. intros; apply h; right; auto.
Qed.
Lemma add_outputs_same cs l : NoDup (map (k_commit C) l) ->
  (forall c, In c cs -> In (mkCom C (c_commit C c) true) l) -> add_outputs C cs l = l.
Proof.
  intros hn. unfold add_outputs. induction cs as [|c cs IH]; intros h; simpl; [reflexivity|].
  rewrite add_output_same by (try exact hn; apply h; left; reflexivity).
  apply IH. intros; apply h; right; auto.
Qed.

Definition in_coms (l : list coin) := map (fun c => mkCom C (c_commit C c) false) l.
Definition out_coms (l : list coin) := map (fun c => mkCom C (c_commit C c) true) l.
Lemma in_coms_commits l : map (k_commit C) (in_coms l) = map (c_commit C) l.
Proof. unfold in_coms. rewrite map_map. reflexivity. Qed.
Lemma out_coms_commits l : map (k_commit C) (out_coms l) = map (c_commit C) l.
Proof. unfold out_coms. rewrite map_map. reflexivity. Qed.
Lemma filter_in_coms l : filter (fun c => negb (k_proof C c)) (in_coms l) = in_coms l /\
                         filter (k_proof C) (in_coms l) = [].
Proof. induction l as [|c l [IH1 IH2]]; simpl; [auto|]. rewrite IH1, IH2. auto. Qed.
Lemma filter_out_coms l : filter (fun c => negb (k_proof C c)) (out_coms l) = [] /\
                          filter (k_proof C) (out_coms l) = out_coms l.
Proof. induction l as [|c l [IH1 IH2]]; simpl; [auto|]. rewrite IH1, IH2. auto. Qed.

End Algebra.
