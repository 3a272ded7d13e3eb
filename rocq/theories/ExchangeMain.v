(** Proofs for the exchange: the honest run, completeness, and nonce use. *)
From Verif Require Import Base ExchangeModel ExchangeSpec ExchangeProofs.
From Coq Require Import Znumtheory Permutation.
Open Scope Z_scope.

Lemma ret_inj {A} (a b : A) : Ret a = Ret b -> a = b.
Proof. intros E. exact (f_equal (fun o => match o with Ret z => z | _ => a end) E). Qed.

Lemma mod3 n a b c : (a mod n + b mod n + c mod n) mod n = (a + b + c) mod n.
Proof.
  rewrite Zplus_mod_idemp_r, <- (Zplus_mod_idemp_l (_ + _)), <- Zplus_mod, Zplus_mod_idemp_l.
  reflexivity.
Qed.

Lemma total_value_snoc l a b : total_value (l ++ [mkExCoin a b]) = total_value l + a.
Proof. rewrite total_value_app. cbn [total_value fold_right c_value]. unfold total_value; simpl; lia. Qed.
Lemma total_blind_snoc l a b : total_blind (l ++ [mkExCoin a b]) = total_blind l + b.
Proof. rewrite total_blind_app. unfold total_blind; simpl; lia. Qed.

Section Main.
Variable C : Curve.
Hypothesis ok : curve_ok C.
Variable challenge : Z -> point C -> Z -> Z.
Variable kernel_message : Z -> Z.

Notation "0p" := (zero C).
Notation G := (gen_g C).
Notation H := (gen_h C).
Notation q := (order C).
Infix "++p" := (add C) (at level 50, left associativity).

Lemma send_spec id amount fee ins change off nonce s t :
  BuildSend C id amount fee ins change off nonce = Ret (s, t) ->
  exists x,
    x = (total_blind change - total_blind ins - off) mod q /\ 0 < x < q /\ 0 < nonce < q /\
    s = mkSlate C id amount fee off [mkSig C (mul C x G) (mul C nonce G) None]
                (add_outputs C change (add_inputs C ins [])) /\
    t = mkContext C x nonce ins change s.
Proof.
  unfold BuildSend. intros E. apply obind_ret in E. destruct E as [k [Ek E]].
  apply signing_keys_spec in Ek; [|exact ok]. destruct Ek as [K1 [K2 [K3 [K4 [K5 K6]]]]].
  apply ret_inj in E. apply pair_equal_spec in E. destruct E as [Es Et].
  exists (secret_key C k). repeat split; try tauto.
  - rewrite <- Es, K3, K6. reflexivity.
  - rewrite <- Et, K4, <- Es. reflexivity.
Qed.

Lemma receive_spec xs ks id amount fee off coms blind offr kr s2 :
  0 < xs < q -> 0 < ks < q ->
  Receive C challenge kernel_message
    (mkSlate C id amount fee off [mkSig C (mul C xs G) (mul C ks G) None] coms)
    blind offr kr = Ret s2 ->
  exists x,
    x = (blind - offr) mod q /\ 0 < x < q /\ 0 < kr < q /\
    mul C xs G ++p mul C x G <> 0p /\ mul C ks G ++p mul C kr G <> 0p /\
    let P := mul C xs G ++p mul C x G in
    let R := mul C ks G ++p mul C kr G in
    s2 = mkSlate C id amount fee ((off + offr) mod q)
           [mkSig C (mul C x G) (mul C kr G)
              (Some (xcoord C (mul C kr G),
                     (signed_nonce C R kr + challenge (xcoord C R) P (kernel_message fee) * x) mod q))]
           (AddOutput C (commit_point C amount blind) coms).
Proof.
  intros Hxs Hks. unfold Receive. cbn [x_id x_amount x_fee x_offset x_sigs x_coms].
  intros E. apply obind_ret in E. destruct E as [k [Ek E]].
  apply obind_ret in E. destruct E as [o [Eo E]].
  apply obind_ret in E. destruct E as [g [Eg E]].
  apply signing_keys_spec in Ek; [|exact ok]. destruct Ek as [K1 [K2 [K3 [K4 [K5 K6]]]]].
  apply blind_sum_spec in Eo; [|exact ok]. destruct Eo as [Eo _].
  unfold BuildSignature in Eg. cbv zeta in Eg.
  apply obind_ret in Eg. destruct Eg as [p [Ep Eg]].
  apply obind_ret in Eg. destruct Eg as [r [Er Eg]].
  apply obind_ret in Eg. destruct Eg as [sig [Es Eg]].
  apply obind_ret in Eg. destruct Eg as [b [Eb Eg]].
  destruct b; [|discriminate].
  unfold CalculateTotalExcess in Ep. unfold CalculateTotalNonce in Er.
  apply keys_sum_spec in Ep; [|exact ok]. apply keys_sum_spec in Er; [|exact ok].
  cbn [app map s_excess s_nonce] in Ep, Er.
  rewrite psum_two in Ep by exact ok. rewrite psum_two in Er by exact ok.
  rewrite K3 in Ep. rewrite K6 in Er.
  destruct Ep as [-> Hp], Er as [-> Hr].
  apply partial_value in Es.
  apply ret_inj in Eg. apply ret_inj in E.
  exists (secret_key C k). cbn [total_blind fold_right c_blind] in K1.
  split. { rewrite K1. f_equal. lia. }
  split; [exact K2|]. split; [exact K5|]. split; [exact Hp|]. split; [exact Hr|].
  cbv zeta. rewrite <- E, <- Eg, Es, K3, K6, K4. unfold c_commit. cbn [c_value c_blind].
  f_equal. rewrite Eo. cbn [zsum fold_right]. f_equal. lia.
Qed.

(** The sums of a transaction whose values balance. *)
Lemma sums_ok ins outs fee P sig off x :
  P = mul C x G -> P <> 0p -> 0 <= fee -> 0 < off < q ->
  total_value ins = fee + total_value outs ->
  (total_blind outs - total_blind ins) mod q = (x + off) mod q ->
  (total_blind outs - total_blind ins) mod q <> 0 ->
  ValidateKernelSums C (mkExTx C (map (c_commit C) ins) (map (c_commit C) outs) fee P sig off) = Ret tt /\
  balanced C (mkExTx C (map (c_commit C) ins) (map (c_commit C) outs) fee P sig off) /\
  P = mul C (total_blind outs - total_blind ins - off) G.
Proof.
  intros HP HP0 Hfee Hoff Hv Hb Hn.
  assert (Hx : mul C (total_blind outs - total_blind ins) G = mul C (x + off) G)
    by (apply (mul_eq C ok); exact Hb).
  assert (U : psum C (if 0 <? fee then map (c_commit C) outs ++ [commit_point C fee 0]
                      else map (c_commit C) outs)
              ++p neg C (psum C (map (c_commit C) ins))
              = mul C (total_blind outs - total_blind ins) G).
  { assert (U1 : psum C (if 0 <? fee then map (c_commit C) outs ++ [commit_point C fee 0]
                      else map (c_commit C) outs)
                 = commit_point C (total_value outs + fee) (total_blind outs)).
    { destruct (0 <? fee) eqn:F.
      - rewrite (psum_app C ok), (psum_one C ok), (psum_commits C ok), (commit_add C ok). f_equal. lia.
      - rewrite (psum_commits C ok). f_equal. lia. }
    rewrite U1, (psum_commits C ok), (commit_neg C ok), (commit_add C ok).
    rewrite <- (commit_zero_value C ok). f_equal; lia. }
  split; [|split].
  - unfold ValidateKernelSums. cbn [e_fee e_outputs e_inputs e_excess e_offset].
    unfold AddCommitments at 1. rewrite U.
    rewrite (eqb_false C ok) by (apply (mul_g_nonzero C ok); exact Hn).
    cbn [obind]. unfold AddCommitments at 1.
    rewrite (psum_one C ok).
    assert (N0 : neg C (psum C []) = 0p)
      by (simpl; apply (neg_unique C ok); apply (ok_zero C ok)).
    rewrite N0, (add_zero_r C ok), (eqb_false C ok) by exact HP0.
    cbn [obind]. replace (off =? 0) with false by lia.
    replace (is_scalar C off) with true by (unfold is_scalar; symmetry; apply andb_true_iff; lia).
    unfold AddCommitments. rewrite (psum_two C ok), N0, (add_zero_r C ok), (commit_zero_value C ok), HP.
    rewrite <- (ok_mul_add C ok), <- Hx.
    rewrite (eqb_false C ok) by (apply (mul_g_nonzero C ok); exact Hn).
    cbn [obind]. rewrite (eqb_refl C ok). reflexivity.
  - unfold balanced. cbn [e_fee e_outputs e_inputs e_excess e_offset].
    change (psum C (map (c_commit C) outs) ++p mul C fee H =
            (psum C (map (c_commit C) ins) ++p P) ++p mul C off G).
    rewrite !(psum_commits C ok), HP, <- (ok_assoc C ok), <- (ok_mul_add C ok), <- Hx.
    rewrite <- (commit_zero_value C ok), <- (commit_zero_blind C ok), !(commit_add C ok).
    f_equal; lia.
  - rewrite HP. apply (mul_eq C ok).
    rewrite <- (Zminus_mod_idemp_l (_ - _)), Hb, Zminus_mod_idemp_l. f_equal. lia.
Qed.

Lemma exchange_completes id amount fee ins change offs ks s1 t blind offr kr s2 :
  BuildSend C id amount fee ins change offs ks = Ret (s1, t) ->
  Receive C challenge kernel_message s1 blind offr kr = Ret s2 ->
  0 <= fee ->
  total_value ins = amount + fee + total_value change ->
  NoDup (map (c_commit C) (ins ++ change ++ [mkExCoin amount blind])) ->
  (total_blind change + blind - total_blind ins) mod q <> 0 ->
  (offs + offr) mod q <> 0 ->
  map (s_excess C) (x_sigs C s1) <> map (s_excess C) (x_sigs C s2) ->
  exists s3 tx,
    FinalizeWith C challenge kernel_message t s2 = Ret (s3, tx) /\
    kernel_accepted C challenge kernel_message tx /\
    e_inputs C tx = map (c_commit C) ins /\
    e_outputs C tx = map (c_commit C) (change ++ [mkExCoin amount blind]) /\
    e_fee C tx = fee /\
    e_excess C tx = mul C (total_blind change + blind - total_blind ins - e_offset C tx) G /\
    e_offset C tx = (offs + offr) mod q.
Proof.
  intros Hs Hr Hfee Hv Hnd Hb Ho Hne.
  apply send_spec in Hs. destruct Hs as [xs [Exs [Rxs [Rks [Es Et]]]]].
  subst s1. apply receive_spec in Hr; [|assumption|assumption].
  destruct Hr as [xr [Exr [Rxr [Rkr [HP [HR Es2]]]]]]. cbv zeta in Es2.
  set (P := mul C xs G ++p mul C xr G) in *. set (R := mul C ks G ++p mul C kr G) in *.
  set (m := kernel_message fee) in *. set (e := challenge (xcoord C R) P m) in *.
  set (out := mkExCoin amount blind) in *.
  (* commitments *)
  rewrite !map_app in Hnd. cbn [map] in Hnd.
  assert (Hnd1 : NoDup (map (c_commit C) ins ++ map (c_commit C) change)).
  { rewrite app_assoc in Hnd. apply NoDup_remove_1 in Hnd. rewrite app_nil_r in Hnd. exact Hnd. }
  assert (Hnd0 : NoDup (map (c_commit C) ins)).
  { clear - Hnd1. induction (map (c_commit C) ins) as [|a l IH]; [constructor|].
    inversion Hnd1; subst. constructor; auto. intros K. apply H1. apply in_or_app; auto. }
  assert (Hc1 : add_outputs C change (add_inputs C ins []) = in_coms C ins ++ out_coms C change).
  { rewrite (add_inputs_new C ok) by exact Hnd0. cbn [app].
    rewrite (add_outputs_new C ok); [reflexivity|].
    fold (in_coms C ins). rewrite in_coms_commits. exact Hnd1. }
  assert (Hc2 : AddOutput C (commit_point C amount blind) (in_coms C ins ++ out_coms C change)
                = in_coms C ins ++ out_coms C (change ++ [out])).
  { rewrite (add_output_new C ok).
    - unfold out_coms. rewrite map_app, app_assoc. reflexivity.
    - rewrite map_app, in_coms_commits, out_coms_commits.
      rewrite app_assoc in Hnd. apply NoDup_remove_2 in Hnd. rewrite app_nil_r in Hnd. exact Hnd. }
  rewrite Hc1 in Es2. rewrite Hc2 in Es2.
  set (coms := in_coms C ins ++ out_coms C (change ++ [out])) in *.
  assert (Hnc : NoDup (map (k_commit C) coms)).
  { unfold coms. rewrite map_app, in_coms_commits, out_coms_commits, map_app. exact Hnd. }
  assert (Hc3 : add_outputs C change (add_inputs C ins coms) = coms).
  { rewrite (add_inputs_same C ok).
    - apply (add_outputs_same C ok); [exact Hnc|]. intros c Hc. unfold coms. apply in_or_app. right.
      unfold out_coms. apply in_map_iff. exists c. split; [reflexivity|]. apply in_or_app; auto.
    - intros c Hc. unfold coms. rewrite map_app, in_coms_commits. apply in_or_app. left.
      apply in_map; exact Hc. }
  (* signatures *)
  assert (Hne' : mul C xr G <> mul C xs G).
  { subst s2. cbn [x_sigs map s_excess] in Hne. intros K. apply Hne. rewrite K. reflexivity. }
  set (sigR := (xcoord C (mul C kr G), (signed_nonce C R kr + e * xr) mod q)) in *.
  set (sigS := (xcoord C (mul C ks G), (signed_nonce C R ks + e * xs) mod q)).
  set (gR := mkSig C (mul C xr G) (mul C kr G) (Some sigR)) in *.
  set (gS := mkSig C (mul C xs G) (mul C ks G) (Some sigS)).
  set (gN := mkSig C (mul C xs G) (mul C ks G) None).
  assert (KP1 : CalculateTotalExcess C [gR; gN] = Ret P).
  { unfold CalculateTotalExcess. cbn [gR gN map s_excess].
    assert (K : psum C [mul C xr G; mul C xs G] = P) by (rewrite (psum_two C ok); apply (ok_comm C ok)).
    rewrite (keys_sum_ok C ok); rewrite K; [reflexivity|exact HP]. }
  assert (KP2 : CalculateTotalExcess C [gR; gS] = Ret P) by exact KP1.
  assert (KR1 : CalculateTotalNonce C [gR; gN] = Ret R).
  { unfold CalculateTotalNonce. cbn [gR gN map s_nonce].
    assert (K : psum C [mul C kr G; mul C ks G] = R) by (rewrite (psum_two C ok); apply (ok_comm C ok)).
    rewrite (keys_sum_ok C ok); rewrite K; [reflexivity|exact HR]. }
  assert (KR2 : CalculateTotalNonce C [gR; gS] = Ret R) by exact KR1.
  assert (HvR : VerifyPartialSignature C challenge sigR (mul C xr G) P R m = true)
    by (apply (partial_verifies C ok); assumption).
  assert (HvS : VerifyPartialSignature C challenge sigS (mul C xs G) P R m = true)
    by (apply (partial_verifies C ok); assumption).
  assert (Hadd : AddPartialSignature C challenge t [gR] m = Ret [gR; gS]).
  { unfold AddPartialSignature. subst t. cbn [t_key t_nonce].
    rewrite (public_key_ok C xs Rxs). cbn [obind].
    rewrite (public_key_ok C ks Rks). cbn [obind].
    assert (Hex : existsb (fun g => point_eqb C (s_excess C g) (mul C xs G)) [gR] = false).
    { cbn [existsb gR s_excess]. rewrite (eqb_false C ok) by exact Hne'. reflexivity. }
    rewrite Hex. cbn [app]. fold gN. rewrite KP1. cbn [obind]. rewrite KR1. cbn [obind].
    rewrite partial_total by exact Rxs. cbn [obind]. fold e. fold sigS.
    assert (Hset : set_partial C (mul C xs G) sigS [gR; gN] = [gR; gS]).
    { cbn [set_partial gR gN s_excess s_nonce].
      rewrite (eqb_false C ok) by exact Hne'. rewrite (eqb_refl C ok). reflexivity. }
    rewrite Hset.
    assert (Hvp : VerifyPartialSignatures C challenge [gR; gS] m = Ret true).
    { unfold VerifyPartialSignatures. unfold CalculateTotalExcess in KP2.
      unfold CalculateTotalNonce in KR2. rewrite KP2. cbn [obind]. rewrite KR2.
      cbn [obind forallb gR gS s_partial s_excess]. rewrite HvR, HvS. reflexivity. }
    rewrite Hvp. reflexivity. }
  assert (HRk : R = mul C (kr + ks) G)
    by (rewrite (ok_mul_add C ok); apply (ok_comm C ok)).
  assert (HPx : P = mul C (xr + xs) G)
    by (rewrite (ok_mul_add C ok); apply (ok_comm C ok)).
  destruct (aggregate_verifies C ok challenge xr xs kr ks R P m HRk HR HPx) as [Hver Hval].
  fold e in Hver, Hval.
  set (agg := (xcoord C R, ((signed_nonce C R kr + e * xr) mod q
                             + ((signed_nonce C R ks + e * xs) mod q + 0)) mod q)) in *.
  assert (Hoff : 0 < (offs + offr) mod q < q).
  { pose proof (order_pos C ok) as Q1. pose proof (Z.mod_pos_bound (offs + offr) q) as Q2.
    clear - Q1 Q2 Ho. lia. }
  set (off := (offs + offr) mod q) in *.
  assert (Hbl : (total_blind (change ++ [out]) - total_blind ins) mod q = (xr + xs + off) mod q).
  { rewrite Exs, Exr. unfold off, out. rewrite mod3, total_blind_snoc. f_equal. clear; lia. }
  assert (Hbn : (total_blind (change ++ [out]) - total_blind ins) mod q <> 0).
  { unfold out. rewrite total_blind_snoc. exact Hb. }
  assert (Hvv : total_value ins = fee + total_value (change ++ [out])).
  { unfold out. rewrite total_value_snoc, Hv. clear; lia. }
  destruct (sums_ok ins (change ++ [out]) fee P agg off (xr + xs) HPx HP Hfee Hoff Hvv Hbl Hbn)
    as [Hks [Hbal Hex]].
  set (tx := mkExTx C (map (c_commit C) ins) (map (c_commit C) (change ++ [out])) fee P agg off) in *.
  set (s3 := mkSlate C id amount fee off [gR; gS] coms).
  exists s3, tx. split.
  { unfold FinalizeWith. subst t s2. cbn [t_sent t_outputs t_inputs x_offset x_coms x_sigs x_fee x_id x_amount].
    replace (off =? 0) with false by (symmetry; apply Z.eqb_neq; clear - Hoff; lia).
    rewrite Hc3. fold m. rewrite Hadd. cbn [obind]. fold s3.
    assert (Hbt : BuildTransaction C challenge s3 m = Ret tx).
    { unfold BuildTransaction, AggregateSlateSignatures, s3.
      cbn [x_sigs]. rewrite KR2. cbn [obind].
      assert (Ha : AggregateSignatures C (partials C [gR; gS]) R = Ret agg) by reflexivity.
      rewrite Ha. cbn [obind]. rewrite KP2. cbn [obind].
      rewrite Hver. unfold slate_inputs, slate_outputs. cbn [x_coms x_fee x_offset].
      unfold coms. rewrite !filter_app.
      rewrite (proj1 (filter_in_coms C ins)), (proj2 (filter_in_coms C ins)),
              (proj1 (filter_out_coms C (change ++ [out]))), (proj2 (filter_out_coms C (change ++ [out]))).
      rewrite app_nil_r. cbn [app]. rewrite in_coms_commits, out_coms_commits. fold tx.
      rewrite Hks. reflexivity. }
    rewrite Hbt. reflexivity. }
  split. { split; [exact HP|]. split; [exact Hval|exact Hbal]. }
  split; [reflexivity|]. split; [reflexivity|]. split; [reflexivity|].
  split; [|reflexivity].
  cbn [tx e_excess e_offset]. unfold tx; cbn [e_excess e_offset]. rewrite Hex. f_equal.
  unfold out. rewrite total_blind_snoc. reflexivity.
Qed.


(** ** Whatever the other party sends, a finalized transaction is accepted *)
Lemma neg_move p r s : p ++p neg C r = s -> p = r ++p s.
Proof.
  intros <-. rewrite (ok_comm C ok p), (ok_assoc C ok), (ok_neg C ok), (ok_zero C ok). reflexivity.
Qed.

Lemma commitments_sum_spec p n r : AddCommitments C p n = Ret r ->
  psum C p = psum C n ++p r /\ r <> 0p.
Proof.
  unfold AddCommitments. destruct (point_eqb C _ 0p) eqn:E; [discriminate|].
  intros K. apply ret_inj in K. split; [apply neg_move; exact K|].
  intros Z0. rewrite <- K in Z0. rewrite Z0, (eqb_refl C ok) in E. discriminate.
Qed.

Lemma sums_sound tx : 0 <= e_fee C tx -> ValidateKernelSums C tx = Ret tt -> balanced C tx.
Proof.
  intros Hf. unfold ValidateKernelSums, balanced. intros E.
  apply obind_ret in E. destruct E as [u [Eu E]].
  apply obind_ret in E. destruct E as [k [Ek E]].
  apply obind_ret in E. destruct E as [t [Et E]].
  destruct (point_eqb C u t) eqn:Eq; [|discriminate]. apply (ok_eqb C ok) in Eq. subst t.
  apply commitments_sum_spec in Eu. destruct Eu as [Eu _].
  apply commitments_sum_spec in Ek. destruct Ek as [Ek _].
  rewrite (psum_one C ok) in Ek. cbn [psum fold_right] in Ek. rewrite (ok_zero C ok) in Ek.
  assert (Ht : u = k ++p mul C (e_offset C tx) G).
  { destruct (e_offset C tx =? 0) eqn:Z0.
    - apply ret_inj in Et. apply Z.eqb_eq in Z0. rewrite Z0, (mul_0 C ok), (add_zero_r C ok). auto.
    - destruct (is_scalar C (e_offset C tx)); [|discriminate].
      apply commitments_sum_spec in Et. destruct Et as [Et _].
      rewrite (psum_two C ok), (commit_zero_value C ok) in Et.
      cbn [psum fold_right] in Et. rewrite (ok_zero C ok) in Et. auto. }
  change (psum C (e_outputs C tx) ++p mul C (e_fee C tx) H =
          (psum C (e_inputs C tx) ++p e_excess C tx) ++p mul C (e_offset C tx) G).
  rewrite <- (ok_assoc C ok), Ek, <- Ht, <- Eu.
  destruct (0 <? e_fee C tx) eqn:F.
  - rewrite (psum_app C ok), (psum_one C ok), (commit_zero_blind C ok). reflexivity.
  - replace (e_fee C tx) with 0 by lia. rewrite (mul_0 C ok), (add_zero_r C ok). reflexivity.
Qed.

Lemma aggregate_sound sig P m :
  VerifyAggregateSignature C challenge sig P m = true -> signature_valid C challenge P m sig.
Proof.
  unfold VerifyAggregateSignature, signature_valid. intros E.
  apply andb_true_iff in E. destruct E as [E Q]. apply andb_true_iff in E. destruct E as [N X].
  eexists. split; [|split; [|split; [exact Q|]]].
  - intros Z0. rewrite Z0, (eqb_refl C ok) in N. discriminate.
  - apply Z.eqb_eq; exact X.
  - rewrite (ok_comm C ok (add C _ _)).
    apply neg_move. reflexivity.
Qed.

Lemma finalize_sound t rcv s tx : 0 <= x_fee C (t_sent C t) ->
  FinalizeWith C challenge kernel_message t rcv = Ret (s, tx) ->
  kernel_accepted C challenge kernel_message tx /\ e_fee C tx = x_fee C (t_sent C t).
Proof.
  intros Hf. unfold FinalizeWith. intros E.
  apply obind_ret in E. destruct E as [g [Eg E]].
  apply obind_ret in E. destruct E as [tx' [Et E]].
  apply ret_inj in E. apply pair_equal_spec in E. destruct E as [_ <-].
  unfold BuildTransaction in Et. cbn [x_sigs x_fee x_offset] in Et.
  apply obind_ret in Et. destruct Et as [sig [Es Et]].
  apply obind_ret in Et. destruct Et as [P [EP Et]].
  destruct (VerifyAggregateSignature _ _ sig P _) eqn:V; [|discriminate].
  apply obind_ret in Et. destruct Et as [[] [Ek Et]]. apply ret_inj in Et. subst tx'.
  apply (keys_sum_spec C ok) in EP. destruct EP as [_ EP].
  split; [|reflexivity]. split; [exact EP|]. split; [apply aggregate_sound; exact V|].
  apply sums_sound; [exact Hf|exact Ek].
Qed.

(** ** When the calls succeed *)
Lemma blind_sum_total p n :
  (forall b, In b p -> 0 <= b < q) -> (forall b, In b n -> 0 <= b < q) ->
  AddBlindingFactors C p n = Ret ((zsum p - zsum n) mod q).
Proof.
  intros Hp Hn. unfold AddBlindingFactors. pose proof (order_pos C ok) as Hq.
  rewrite <- (zsum_filter p), <- (zsum_filter n).
  assert (F : forallb (is_scalar C) (filter (fun b => negb (b =? 0)) p ++ filter (fun b => negb (b =? 0)) n) = true).
  { apply forallb_forall. intros b Hb. apply in_app_or in Hb. unfold is_scalar. apply andb_true_iff.
    destruct Hb as [Hb|Hb]; apply filter_In in Hb; destruct Hb as [Hb _];
      [apply Hp in Hb|apply Hn in Hb]; lia. }
  destruct (filter _ p) as [|a p'] eqn:Ep; destruct (filter _ n) as [|b n'] eqn:En; cbv zeta beta iota;
    try rewrite F; reflexivity.
Qed.

Lemma signing_keys_total ins outs off nonce :
  (forall c, In c (ins ++ outs) -> 0 <= c_blind c < q) -> 0 <= off < q -> 0 < nonce < q ->
  (total_blind outs - total_blind ins - off) mod q <> 0 ->
  let x := (total_blind outs - total_blind ins - off) mod q in
  CalculateSigningKeys C ins outs off nonce = Ret (mkKeys C x (mul C x G) nonce (mul C nonce G)).
Proof.
  intros Hc Ho Hn Hx x. unfold CalculateSigningKeys. pose proof (order_pos C ok) as Hq.
  rewrite blind_sum_total; [|intros b Hb; apply in_map_iff in Hb; destruct Hb as [c [<- Hb]];
    apply Hc, in_or_app; auto|intros b []].
  cbn [obind]. rewrite blind_sum_total; [|intros b Hb; apply in_map_iff in Hb; destruct Hb as [c [<- Hb]];
    apply Hc, in_or_app; auto|intros b []].
  cbn [obind]. rewrite !zsum_blinds.
  rewrite blind_sum_total; [|intros b [<-|[]]; apply Z.mod_pos_bound; lia|intros b [<-|[]]; apply Z.mod_pos_bound; lia].
  cbn [obind]. rewrite blind_sum_total; [|intros b [<-|[]]; apply Z.mod_pos_bound; lia|intros b [<-|[]]; lia].
  cbn [obind zsum fold_right]. rewrite !Z.add_0_r, !Z.sub_0_r, <- Zminus_mod, Zminus_mod_idemp_l. fold x.
  assert (Hx' : 0 < x < q) by (pose proof (Z.mod_pos_bound (total_blind outs - total_blind ins - off) q); lia).
  rewrite (public_key_ok C x Hx'). cbn [obind]. rewrite (public_key_ok C nonce Hn). reflexivity.
Qed.

Lemma calls_succeed id amount fee ins change offs ks blind offr kr :
  (forall c, In c (ins ++ change) -> 0 <= c_blind c < q) ->
  0 <= blind < q -> 0 <= offs < q -> 0 <= offr < q -> 0 < ks < q -> 0 < kr < q ->
  (total_blind change - total_blind ins - offs) mod q <> 0 ->
  (blind - offr) mod q <> 0 ->
  (total_blind change + blind - total_blind ins - (offs + offr)) mod q <> 0 ->
  (ks + kr) mod q <> 0 ->
  exists s1 t s2,
    BuildSend C id amount fee ins change offs ks = Ret (s1, t) /\
    Receive C challenge kernel_message s1 blind offr kr = Ret s2.
Proof.
  intros Hc Hb Ho Hr Hk Hkr Hxs Hxr Hx Hn. pose proof (order_pos C ok) as Hq.
  unfold BuildSend. rewrite signing_keys_total by assumption. cbn [obind public_key public_nonce secret_key secret_nonce].
  eexists _, _, _. split; [reflexivity|].
  set (xs := (total_blind change - total_blind ins - offs) mod q) in *.
  set (xr := (blind - offr) mod q) in *.
  unfold Receive. cbn [x_id x_amount x_fee x_offset x_sigs x_coms].
  pose proof (signing_keys_total [] [mkExCoin amount blind] offr kr) as Hsk.
  cbn [app total_blind fold_right c_blind] in Hsk.
  replace (blind + 0 - 0 - offr) with (blind - offr) in Hsk by lia.
  cbv zeta in Hsk. fold xr in Hsk. rewrite Hsk; clear Hsk; try assumption.
  2:{ intros c [<-|[]]. cbn. lia. }
  assert (Rxs : 0 < xs < q) by (pose proof (Z.mod_pos_bound (total_blind change - total_blind ins - offs) q); lia).
  assert (Rxr : 0 < xr < q) by (pose proof (Z.mod_pos_bound (blind - offr) q); lia).
  cbn [obind]. rewrite blind_sum_total; [|intros b [<-|[<-|[]]]; lia|intros b []].
  cbn [obind]. unfold BuildSignature. cbn [app public_key public_nonce secret_key secret_nonce].
  set (m := kernel_message fee).
  set (P := mul C xs G ++p mul C xr G). set (R := mul C ks G ++p mul C kr G).
  assert (HP : P <> 0p).
  { unfold P. rewrite <- (ok_mul_add C ok). apply (mul_g_nonzero C ok). unfold xs, xr.
    rewrite <- Zplus_mod. intros K. apply Hx. rewrite <- K. f_equal. lia. }
  assert (HR : R <> 0p).
  { unfold R. rewrite <- (ok_mul_add C ok). apply (mul_g_nonzero C ok). exact Hn. }
  assert (KP : forall o1 o2, AddPublicKeys C (map (s_excess C) [mkSig C (mul C xs G) (mul C ks G) o1; mkSig C (mul C xr G) (mul C kr G) o2]) = Ret P).
  { intros. cbn [map s_excess]. assert (K : psum C [mul C xs G; mul C xr G] = P) by apply (psum_two C ok).
    rewrite (keys_sum_ok C ok); rewrite K; [reflexivity|exact HP]. }
  assert (KR : forall o1 o2, AddPublicKeys C (map (s_nonce C) [mkSig C (mul C xs G) (mul C ks G) o1; mkSig C (mul C xr G) (mul C kr G) o2]) = Ret R).
  { intros. cbn [map s_nonce]. assert (K : psum C [mul C ks G; mul C kr G] = R) by apply (psum_two C ok).
    rewrite (keys_sum_ok C ok); rewrite K; [reflexivity|exact HR]. }
  unfold CalculateTotalExcess, CalculateTotalNonce. rewrite KP. cbn [obind]. rewrite KR. cbn [obind].
  rewrite partial_total by exact Rxr. cbn [obind].
  unfold VerifyPartialSignatures. rewrite KP. cbn [obind]. rewrite KR. cbn [obind forallb s_partial s_excess].
  rewrite (partial_verifies C ok) by assumption. cbn [andb obind]. reflexivity.
Qed.

(** ** Nonces *)
Lemma share_eq {A B} (f : A -> list B) (l : list A) a b x :
  NoDup (flat_map f l) -> In a l -> In b l -> In x (f a) -> In x (f b) -> a = b.
Proof.
  induction l as [|c l IH]; intros Hn Ha Hb Hxa Hxb; [contradiction|].
  simpl in Hn.
  assert (Hsep : forall y, In y l -> In x (f y) -> In x (f c) -> False).
  { intros y Hy Hxy Hxc. clear - Hn Hy Hxy Hxc.
    induction (f c) as [|z t IH]; [contradiction|]. simpl in Hn. inversion Hn; subst.
    destruct Hxc as [->|Hxc]; [|auto].
    apply H1. apply in_or_app. right. apply in_flat_map. exists y; auto. }
  assert (Hl : NoDup (flat_map f l)).
  { clear - Hn. induction (f c) as [|z t IH]; [exact Hn|]. simpl in Hn. inversion Hn; auto. }
  destruct Ha as [<-|Ha], Hb as [<-|Hb]; auto; exfalso; eapply Hsep; eauto.
Qed.

Lemma finalized_origin ops : forall w id n m,
  In (Finalized C id n m) (ex_run C challenge kernel_message w ops) ->
  (exists t, GetSlateContext C id w = Some t /\ t_nonce C t = n) \/
  In (Sent C id n) (ex_run C challenge kernel_message w ops).
Proof.
  induction ops as [|o ops IH]; intros w id n m; [intros []|].
  cbn [ex_run]. destruct (ex_step C challenge kernel_message w o) as [w' ev] eqn:E.
  intros Hin. apply in_app_or in Hin. destruct Hin as [Hin|Hin].
  - left. destruct o as [i a f ins ch of k|s b of k|rcv]; cbn [ex_step] in E.
    + destruct (GetSlateContext C i w); [|destruct (BuildSend _ _ _ _ _ _ _ _) as [[? ?]| |]];
        apply pair_equal_spec in E; destruct E as [_ <-]; try contradiction.
      destruct Hin as [Hin|[]]. discriminate.
    + destruct (Receive _ _ _ _ _ _ _); apply pair_equal_spec in E; destruct E as [_ <-]; try contradiction.
      destruct Hin as [Hin|[]]. discriminate.
    + destruct (GetSlateContext C (x_id C rcv) w) as [t|] eqn:Eg;
        [|apply pair_equal_spec in E; destruct E as [_ <-]; contradiction].
      destruct (FinalizeWith _ _ _ _ _) as [[s x]| |]; apply pair_equal_spec in E; destruct E as [_ <-]; try contradiction.
      destruct Hin as [Hin|[]].
      assert (Hi : x_id C rcv = id) by exact (f_equal (fun e => match e with Finalized _ i _ _ => i | _ => 0 end) Hin).
      assert (Hk : t_nonce C t = n) by exact (f_equal (fun e => match e with Finalized _ _ k _ => k | _ => 0 end) Hin).
      exists t. rewrite <- Hi. auto.
  - destruct (IH w' id n m Hin) as [[t [Ht Hk]]|Hs]; [|right; apply in_or_app; auto].
    destruct o as [i a f ins ch of k|s b of k|rcv]; cbn [ex_step] in E.
    + destruct (GetSlateContext C i w) eqn:Eg;
        [apply pair_equal_spec in E; destruct E as [<- <-]; eauto|].
      destruct (BuildSend _ _ _ _ _ _ _ _) as [[s t']| |] eqn:Eb;
        apply pair_equal_spec in E; destruct E as [<- <-]; eauto.
      unfold GetSlateContext in Ht. cbn [find fst] in Ht.
      destruct (i =? id) eqn:Ei; [|left; eauto].
      right. left. cbn [option_map snd] in Ht.
      apply send_spec in Eb. destruct Eb as [x [_ [_ [_ [_ Et]]]]].
      assert (t' = t) by exact (f_equal (fun o => match o with Some z => z | None => t' end) Ht).
      subst t t'. cbn [t_nonce] in Hk. apply Z.eqb_eq in Ei. subst. reflexivity.
    + destruct (Receive _ _ _ _ _ _ _); apply pair_equal_spec in E; destruct E as [<- <-]; eauto.
    + destruct (GetSlateContext C (x_id C rcv) w) as [t0|]; [|apply pair_equal_spec in E; destruct E as [<- <-]; eauto].
      destruct (FinalizeWith _ _ _ _ _) as [[s x]| |]; apply pair_equal_spec in E; destruct E as [<- <-]; eauto.
Qed.

Lemma nonces_once_when ops :
  NoDup (drawn C (ex_run C challenge kernel_message [] ops)) ->
  NoDup (finalized C (ex_run C challenge kernel_message [] ops)) ->
  nonces_once C (ex_run C challenge kernel_message [] ops).
Proof.
  set (l := ex_run C challenge kernel_message [] ops). intros Hd Hf e1 e2 n m1 m2 H1 H2 N1 N2.
  assert (Hor : forall id k m, In (Finalized C id k m) l -> In (Sent C id k) l).
  { intros id k m Hin. apply finalized_origin in Hin. destruct Hin as [[t [Ht _]]|Hin]; [|exact Hin].
    discriminate. }
  assert (Hsame : e1 = e2).
  { destruct e1 as [i1 k1|k1 g1|i1 k1 g1], e2 as [i2 k2|k2 g2|i2 k2 g2]; cbn [nonce_of] in N1, N2; try discriminate.
    all: assert (k1 = n) by exact (f_equal (fun o => match o with Some p => fst p | None => k1 end) N1).
    all: assert (k2 = n) by exact (f_equal (fun o => match o with Some p => fst p | None => k2 end) N2).
    all: subst k1 k2.
    - eapply (share_eq _ l _ _ n Hd H1 H2); left; reflexivity.
    - apply Hor in H2. assert (K : Received C n g1 = Sent C i2 n)
        by (eapply (share_eq _ l _ _ n Hd H1 H2); left; reflexivity). discriminate.
    - apply Hor in H1. assert (K : Sent C i1 n = Received C n g2)
        by (eapply (share_eq _ l _ _ n Hd H1 H2); left; reflexivity). discriminate.
    - assert (K : Sent C i1 n = Sent C i2 n)
        by (eapply (share_eq _ l _ _ n Hd (Hor _ _ _ H1) (Hor _ _ _ H2)); left; reflexivity).
      assert (i1 = i2) by exact (f_equal (fun e => match e with Sent _ i _ => i | _ => 0 end) K).
      subst i2. eapply (share_eq _ l _ _ i1 Hf H1 H2); left; reflexivity. }
  subst e2. rewrite N1 in N2.
  exact (f_equal (fun o => match o with Some p => snd p | None => m1 end) N2).
Qed.

(** Two signatures with one nonce give the key. *)
Lemma key_from_two x k P1 R1 m1 P2 R2 m2 r1 s1 r2 s2 :
  CalculatePartialSignature C challenge x k P1 R1 m1 = Ret (r1, s1) ->
  CalculatePartialSignature C challenge x k P2 R2 m2 = Ret (r2, s2) ->
  let sgn (R : point C) := if quad_y C R then 1 else -1 in
  let d := sgn R1 * challenge (xcoord C R1) P1 m1 - sgn R2 * challenge (xcoord C R2) P2 m2 in
  let v := sgn R1 * s1 - sgn R2 * s2 in
  (d * x) mod q = v mod q /\
  (d mod q <> 0 -> forall y, 0 <= y < q -> (d * y) mod q = v mod q -> y = x).
Proof.
  intros E1 E2 sgn d v. pose proof (order_pos C ok) as Hq.
  assert (Hx : 0 <= x < q).
  { unfold CalculatePartialSignature, is_scalar in E1. destruct ((0 <=? x) && (x <? q)) eqn:K; [|discriminate]. lia. }
  apply partial_value in E1. apply partial_value in E2.
  apply pair_equal_spec in E1. apply pair_equal_spec in E2. destruct E1 as [_ E1], E2 as [_ E2].
  assert (Hs : forall R, signed_nonce C R k = sgn R * k).
  { intros R. unfold signed_nonce, sgn. destruct (quad_y C R); lia. }
  assert (Hsq : forall R, sgn R * sgn R = 1) by (intros R; unfold sgn; destruct (quad_y C R); reflexivity).
  rewrite Hs in E1, E2.
  set (e1 := challenge (xcoord C R1) P1 m1) in *. set (e2 := challenge (xcoord C R2) P2 m2) in *.
  assert (Hv : (d * x) mod q = v mod q).
  { unfold v. rewrite E1, E2.
    rewrite Zminus_mod, !(Zmult_mod_idemp_r), <- Zminus_mod. f_equal.
    unfold d. rewrite !Z.mul_add_distr_l, !Z.mul_assoc, !Hsq. lia. }
  split; [exact Hv|].
  intros Hd y Hy Ey.
  assert (D : (q | d * (y - x))).
  { apply Zmod_divide; [lia|]. rewrite Z.mul_sub_distr_l, Zminus_mod, Ey, Hv, Z.sub_diag. apply Z.mod_0_l. lia. }
  apply (prime_mult q (ok_prime C ok)) in D. destruct D as [D|D].
  - exfalso. apply Hd. apply Zdivide_mod. exact D.
  - destruct D as [c Hc].
    rewrite <- (Z.mod_small y q Hy), <- (Z.mod_small x q Hx).
    replace y with (x + c * q) by (clear - Hc; lia). apply Z_mod_plus_full.
Qed.

End Main.
