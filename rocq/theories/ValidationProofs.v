(** Lemmas for ValidationProps.v. *)
From Coq Require Import Permutation Sorted.
From Verif Require Import Base Bytes FileModel CodecModel CodecSpec CodecProofs ConsensusModel
  DifficultySpec ValidationModel ValidationSpec.
Local Open Scope Z_scope.

Lemma Ret_inj {A} (x y : A) : Ret x = Ret y -> x = y.
Proof. intros H. injection H. auto. Qed.

(** * Sums *)
Lemma sumZ_app a b : sumZ (a ++ b) = sumZ a + sumZ b.
Proof. induction a as [|x a IH]; cbn [sumZ app fold_right]; [reflexivity|]. unfold sumZ in IH. rewrite IH. unfold sumZ. lia. Qed.
Lemma sumZ_perm a b : Permutation a b -> sumZ a = sumZ b.
Proof. unfold sumZ. induction 1; cbn [fold_right]; lia. Qed.
Lemma total_app value a b : total value (a ++ b) = total value a + total value b.
Proof. unfold total. rewrite map_app. apply sumZ_app. Qed.
Lemma total_perm value a b : Permutation a b -> total value a = total value b.
Proof. intros H. apply sumZ_perm, Permutation_map, H. Qed.
Lemma total_cons value a b : total value (a :: b) = value a + total value b.
Proof. reflexivity. Qed.

Lemma zlen_nlen {A} (l : list A) : Z.of_N (nlen l) = zlen l.
Proof. unfold nlen, zlen. lia. Qed.
Lemma filter_shorter {A} (f : A -> bool) l : (length (filter f l) <= length l)%nat.
Proof. induction l as [|x l IH]; cbn [filter length]; [lia|]. destruct (f x); cbn [length]; lia. Qed.
Lemma zlen_nonneg {A} (l : list A) : 0 <= zlen l.
Proof. unfold zlen. lia. Qed.
Lemma zlen_map {A B} (f : A -> B) l : zlen (map f l) = zlen l.
Proof. unfold zlen. rewrite map_length. reflexivity. Qed.

Lemma total_bound opens value cs : values opens value cs -> 0 <= total value cs <= zlen cs * 2 ^ 64.
Proof.
  unfold values, total. induction cs as [|c cs IH]; intros H; [cbn; lia|].
  assert (Hc := proj1 (H c (or_introl eq_refl))).
  assert (IH' := IH (fun c' Hc' => H c' (or_intror Hc'))). clear IH H.
  change (sumZ (map value (c :: cs))) with (value c + sumZ (map value cs)).
  unfold zlen in *. cbn [length]. rewrite Nat2Z.inj_succ. lia.
Qed.

(** * Weight *)
Lemma weight_v5_exact b env h w : (5 <= GetHeaderVersion env h)%N ->
  zlen (b_inputs b) < 2 ^ 58 -> zlen (b_outputs b) < 2 ^ 58 -> zlen (b_kernels b) < 2 ^ 58 ->
  CalcWeight env b h = Ret w -> Z.of_N w = weight_since_v5 b.
Proof.
  intros Hv H1 H2 H3. unfold CalcWeight. replace (GetHeaderVersion env h <? 5)%N with false by lia.
  intros H. injection H as <-. unfold CalculateWeightV5, INPUT_WEIGHT, OUTPUT_WEIGHT, KERNEL_WEIGHT, weight_since_v5.
  rewrite <- (zlen_nlen (b_inputs b)), <- (zlen_nlen (b_outputs b)), <- (zlen_nlen (b_kernels b)) in *.
  generalize dependent (nlen (b_inputs b)). generalize dependent (nlen (b_outputs b)). generalize dependent (nlen (b_kernels b)).
  intros k H3 o H2 i H1. change (2 ^ 58) with 288230376151711744 in *.
  rewrite !mul64_small by lia. rewrite (add64_small (i * 1) (o * 21)) by lia. rewrite add64_small by lia. lia.
Qed.
Lemma weight_v4_exact b env h w : (GetHeaderVersion env h < 5)%N ->
  zlen (b_inputs b) < 2 ^ 58 -> zlen (b_outputs b) < 2 ^ 58 -> zlen (b_kernels b) < 2 ^ 58 ->
  CalcWeight env b h = Ret w -> Z.of_N w = weight_before_v5 b.
Proof.
  intros Hv H1 H2 H3. unfold CalcWeight. replace (GetHeaderVersion env h <? 5)%N with true by lia.
  unfold CalculateWeightV4, weight_before_v5.
  rewrite <- (zlen_nlen (b_inputs b)), <- (zlen_nlen (b_outputs b)), <- (zlen_nlen (b_kernels b)) in *.
  generalize dependent (nlen (b_inputs b)). generalize dependent (nlen (b_outputs b)). generalize dependent (nlen (b_kernels b)).
  intros k H3 o H2 i H1. change (2 ^ 58) with 288230376151711744 in *.
  unfold i64. replace (i <? 9223372036854775808)%N with true by lia.
  replace (o <? 9223372036854775808)%N with true by lia. replace (k <? 9223372036854775808)%N with true by lia.
  cbv zeta. match goal with |- (if ?c then _ else _) = _ -> _ => destruct c end; [|discriminate].
  intros H. apply Ret_inj in H. subst w. unfold u64. rewrite Z.mod_small by lia. lia.
Qed.

(** * Sorting and duplicates *)
Local Open Scope N_scope.
Lemma IsSorted_cons a l : IsSorted (a :: l) = true -> IsSorted l = true /\ Forall (fun x => a <= x) l.
Proof.
  revert a. induction l as [|b l IH]; intros a H; [split; [reflexivity|constructor]|].
  change (IsSorted (a :: b :: l)) with (if b <? a then false else IsSorted (b :: l)) in H.
  destruct (b <? a) eqn:E; [discriminate|]. split; [exact H|].
  apply IH in H. destruct H as [_ H]. constructor; [lia|].
  eapply Forall_impl; [|exact H]. cbn. intros x Hx. lia.
Qed.
Lemma no_equal_cons {A} (eqb : A -> A -> bool) a b l : no_equal_neighbours eqb (a :: b :: l) = true ->
  eqb b a = false /\ no_equal_neighbours eqb (b :: l) = true.
Proof.
  change (no_equal_neighbours eqb (a :: b :: l)) with (if eqb b a then false else no_equal_neighbours eqb (b :: l)).
  destruct (eqb b a); [discriminate|]. auto.
Qed.

(** If the hashes are sorted and no neighbours are equal, two elements with the same key are
    separated by a pair of different keys with the same hash. *)
Lemma sorted_distinct {A K} (key : A -> K) (h : A -> N) (eqb : A -> A -> bool) (l : list A) :
  (forall a b : K, {a = b} + {a <> b}) ->
  (forall a b, In a l -> In b l -> key a = key b -> h a = h b) ->
  (forall a b, In a l -> In b l -> key a = key b -> eqb b a = true) ->
  IsSorted (map h l) = true -> no_equal_neighbours eqb l = true ->
  NoDup (map key l) \/ exists a b, In a l /\ In b l /\ key a <> key b /\ h a = h b.
Proof.
  intros dec. induction l as [|a l IH]; intros Hh He Hs Hn; [left; constructor|].
  cbn [map] in Hs. assert (Hs' := IsSorted_cons _ _ Hs). destruct Hs' as [Hs' Hle].
  assert (Hn' : no_equal_neighbours eqb l = true).
  { destruct l; [reflexivity|]. exact (proj2 (no_equal_cons _ _ _ _ Hn)). }
  destruct (IH (fun x y Hx Hy => Hh x y (or_intror Hx) (or_intror Hy))
               (fun x y Hx Hy => He x y (or_intror Hx) (or_intror Hy)) Hs' Hn') as [IH1|[x [y [Hx [Hy H]]]]].
  2: { right. exists x, y. cbn [In]. auto. }
  destruct l as [|b l]; [left; constructor; [intros []|constructor]|].
  destruct (in_dec dec (key a) (map key (b :: l))) as [Hin|Hin]; [|left; constructor; assumption].
  right. exists a, b. apply in_map_iff in Hin. destruct Hin as [x [Hk Hx]].
  assert (Hb : In b (b :: l)) by (left; reflexivity).
  split; [left; reflexivity|]. split; [right; exact Hb|].
  destruct (no_equal_cons _ _ _ _ Hn) as [Hne _]. split.
  { intros E. rewrite (He a b (or_introl eq_refl) (or_intror Hb) E) in Hne. discriminate. }
  assert (E1 := Hh x a (or_intror Hx) (or_introl eq_refl) Hk).
  assert (h a <= h b) by (apply (Forall_inv Hle)).
  assert (h b <= h x).
  { destruct Hx as [->|Hx]; [lia|]. cbn [map] in Hs'. apply IsSorted_cons in Hs'. destruct Hs' as [_ Hl].
    rewrite Forall_forall in Hl. apply Hl, in_map, Hx. }
  lia.
Qed.

Section Bodies.
Variable Blake2b : bytes -> bytes.
Hypothesis Blake2b_bytes : forall x, length (Blake2b x) = 32%nat /\ is_bytes (Blake2b x).

Lemma hash_value_inj x y : be_value (Blake2b x) = be_value (Blake2b y) -> Blake2b x = Blake2b y.
Proof.
  intros H. destruct (Blake2b_bytes x) as [L1 B1]. destruct (Blake2b_bytes y) as [L2 B2].
  rewrite <- (be_bytes_be_value _ B1), <- (be_bytes_be_value _ B2). rewrite L1, L2, H. reflexivity.
Qed.
Definition bytes_dec (a b : bytes) : {a = b} + {a <> b} := list_eq_dec N.eq_dec a b.

Lemma VerifySorted_ok b : VerifySorted Blake2b b = Ret tt ->
  IsSorted (hashes_of (input_hash Blake2b) (b_inputs b)) = true /\
  IsSorted (hashes_of (output_hash Blake2b) (b_outputs b)) = true /\
  IsSorted (hashes_of (kernel_hash Blake2b) (b_kernels b)) = true /\
  no_equal_neighbours input_eqb (b_inputs b) = true /\
  no_equal_neighbours (output_eqb Blake2b) (b_outputs b) = true.
Proof.
  unfold VerifySorted. destruct (IsSorted (hashes_of (input_hash Blake2b) _)); [|discriminate].
  destruct (IsSorted (hashes_of (output_hash Blake2b) _)); [|discriminate].
  destruct (IsSorted (hashes_of (kernel_hash Blake2b) _)); [|discriminate]. cbn [negb andb].
  destruct (no_equal_neighbours input_eqb _); [|discriminate].
  destruct (no_equal_neighbours _ (b_outputs b)); [|discriminate]. auto.
Qed.

(** Inputs whose feature byte is determined by the commitment. *)
Lemma inputs_distinct b : VerifySorted Blake2b b = Ret tt ->
  (forall i j, In i (b_inputs b) -> In j (b_inputs b) -> i_commitment i = i_commitment j -> i_features i = i_features j) ->
  NoDup (map i_commitment (b_inputs b)) \/ collision Blake2b.
Proof.
  intros H Hf. apply VerifySorted_ok in H. destruct H as [Hs [_ [_ [Hn _]]]].
  destruct (sorted_distinct i_commitment (fun i => be_value (input_hash Blake2b i)) input_eqb (b_inputs b) bytes_dec) as [D|[x [y [_ [_ [D E]]]]]].
  - intros x y _ _ E. unfold input_hash, Input_Serialize. change (1000 <? 3) with false. cbv iota.
    rewrite E. reflexivity.
  - intros x y Hx Hy E. unfold input_eqb. rewrite (Hf y x Hy Hx (eq_sym E)), E, N.eqb_refl, bytes_eqb_refl. reflexivity.
  - exact Hs.
  - exact Hn.
  - left. exact D.
  - right. exists (i_commitment x), (i_commitment y). split; [exact D|].
    apply hash_value_inj in E. unfold input_hash, Input_Serialize in E. change (1000 <? 3) with false in E. exact E.
Qed.

Lemma outputs_distinct b : VerifySorted Blake2b b = Ret tt ->
  Forall (fun o => o_features o < 256) (b_outputs b) ->
  NoDup (map (fun o => (o_features o, o_commitment o)) (b_outputs b)) \/ collision Blake2b.
Proof.
  intros H Hf. apply VerifySorted_ok in H. destruct H as [_ [Hs [_ [_ Hn]]]].
  assert (dec : forall a b : N * bytes, {a = b} + {a <> b}).
  { intros [a1 a2] [b1 b2]. destruct (N.eq_dec a1 b1); [|right; congruence]. destruct (bytes_dec a2 b2); [left|right]; congruence. }
  destruct (sorted_distinct (fun o => (o_features o, o_commitment o)) (fun o => be_value (output_hash Blake2b o))
              (output_eqb Blake2b) (b_outputs b) dec) as [D|[x [y [Hx [Hy [D E]]]]]].
  - intros x y _ _ E. injection E as E1 E2. unfold output_hash. rewrite E1, E2. reflexivity.
  - intros x y _ _ E. injection E as E1 E2. unfold output_eqb, output_hash. rewrite E1, E2. apply bytes_eqb_refl.
  - exact Hs.
  - exact Hn.
  - left. exact D.
  - right. apply hash_value_inj in E. unfold output_hash in E.
    eexists _, _. split; [|exact E]. intros E'. apply D.
    unfold SerialModel.AppendBigInteger in E'.
    rewrite Forall_forall in Hf. apply Hf in Hx. apply Hf in Hy.
    apply app_inv_length in E'; [|reflexivity]. destruct E' as [E1 E2].
    unfold SerialModel.Append in E1. cbn [le_bytes rev app] in E1. injection E1 as E1.
    rewrite !N.mod_small in E1 by assumption. congruence.
Qed.

Lemma cut_through_ok b : VerifyCutThrough b = Ret tt ->
  forall c, In c (input_commitments b) -> In c (output_commitments b) -> False.
Proof.
  unfold VerifyCutThrough. destruct (existsb _ (b_inputs b)) eqn:E; [discriminate|]. intros _ c H1 H2.
  apply in_map_iff in H1. destruct H1 as [i [H1 Hi]]. apply in_map_iff in H2. destruct H2 as [o [H2 Ho]].
  apply not_true_iff_false in E. apply E. apply existsb_exists. exists i. split; [exact Hi|].
  apply existsb_exists. exists o. split; [exact Ho|]. rewrite H1, H2. apply bytes_eqb_refl.
Qed.
End Bodies.

(** * Values *)
Section Values.
Local Open Scope Z_scope.
Variable opens : bytes -> Z -> Z -> Prop.
Variable AddCommitments : list bytes -> list bytes -> outcome bytes.
Variable CommitTransparent : N -> bytes.
Variable CommitBlinded : N -> bytes -> bytes.
Variable VerifyRangeProofs : list (bytes * bytes) -> bool.
Variable VerifyKernelSignatures : list bytes -> list bytes -> list bytes -> bool.
Hypothesis sound : sound_crypto opens AddCommitments CommitTransparent CommitBlinded VerifyRangeProofs VerifyKernelSignatures.

Definition zero_opens (cs : list bytes) : Prop := forall e, In e cs -> exists x, opens e 0 x.

Lemma open_values value cs : values opens value cs -> exists os, open_all opens cs os /\ map fst os = map value cs.
Proof.
  induction cs as [|c cs IH]; intros H; [exists []; split; [constructor|reflexivity]|].
  destruct (IH (fun c' Hc' => H c' (or_intror Hc'))) as [os [H1 H2]].
  destruct (H c (or_introl eq_refl)) as [_ [r Hr]]. exists ((value c, r) :: os).
  split; [constructor; assumption|]. cbn [map fst]. rewrite H2. reflexivity.
Qed.
Lemma open_zero cs : zero_opens cs -> exists os, open_all opens cs os /\ sumZ (map fst os) = 0.
Proof.
  induction cs as [|c cs IH]; intros H; [exists []; split; [constructor|reflexivity]|].
  destruct (IH (fun c' Hc' => H c' (or_intror Hc'))) as [os [H1 H2]].
  destruct (H c (or_introl eq_refl)) as [r Hr]. exists ((0, r) :: os).
  split; [constructor; assumption|]. cbn [map fst]. change (0 + sumZ (map fst os) = 0). rewrite H2. reflexivity.
Qed.
Lemma open_app a b oa ob : open_all opens a oa -> open_all opens b ob -> open_all opens (a ++ b) (oa ++ ob).
Proof. intros H1 H2. apply Forall2_app; assumption. Qed.

Lemma add_offset k off s : zero_opens [k] -> AddKernelOffset AddCommitments CommitBlinded k off = Ret s -> zero_opens [s].
Proof.
  intros Hk. unfold AddKernelOffset. destruct (bytes_eqb off (repeat 0%N 32)).
  - intros H. injection H as <-. exact Hk.
  - intros H. destruct (Hk k (or_introl eq_refl)) as [r Hr].
    destruct (sc_blinded _ _ _ _ _ _ sound off) as [x Hx].
    intros e [<-|[]]. eexists.
    exact (sc_add _ _ _ _ _ _ sound _ _ _ [(0, r); (0, x)] [] H
             ltac:(repeat (apply Forall2_cons || apply Forall2_nil); assumption) ltac:(apply Forall2_nil)).
Qed.

(** The two sides of the balance equation open to the same commitment, so they agree. *)
Lemma kernel_sums value ins outs kers overage off sums s' a :
  ValidateKernelSums AddCommitments CommitTransparent CommitBlinded ins outs kers overage off sums = Ret s' ->
  values opens value ins -> values opens value outs -> zero_opens kers ->
  Z.abs overage < 2 ^ 64 -> zlen ins < 2 ^ 64 -> zlen outs < 2 ^ 64 ->
  match sums with
  | Some s => (exists r, opens (m_outputSum s) a r) /\ zero_opens [m_kernelSum s] /\ Z.abs a < 2 ^ 64
  | None => a = 0
  end ->
  (total value outs - total value ins + overage + a = 0 \/ binding_broken opens) /\
  (exists r, opens (m_outputSum s') (total value outs - total value ins + overage + a) r) /\ zero_opens [m_kernelSum s'].
Proof.
  unfold ValidateKernelSums. intros H Hi Ho Hk Hov Li Lo Hs.
  destruct (open_values _ _ Hi) as [oi [Oi Ei]]. destruct (open_values _ _ Ho) as [oo [Oo Eo]].
  destruct (open_zero _ Hk) as [ok [Ok Ek]].
  assert (A1 : exists ex, open_all opens (if (0 <? overage) then [CommitTransparent (u64 overage)] else []) ex
                          /\ sumZ (map fst ex) = Z.max overage 0).
  { destruct (0 <? overage) eqn:E.
    - exists [(overage, 0)]. split; [|cbn; lia]. constructor; [|constructor]. cbn [fst snd].
      replace overage with (Z.of_N (u64 overage)) at 2 by (unfold u64; rewrite Z.mod_small by lia; lia).
      apply (sc_transparent _ _ _ _ _ _ sound). unfold u64. rewrite Z.mod_small by lia. lia.
    - exists []. split; [constructor|]. cbn. lia. }
  assert (A2 : exists ex, open_all opens (if (0 <? overage) then [] else
                                     if (overage <? 0) then [CommitTransparent (u64 (- overage))] else []) ex
                          /\ sumZ (map fst ex) = Z.max (- overage) 0).
  { destruct (0 <? overage) eqn:E; [exists []; split; [constructor|cbn; lia]|].
    destruct (overage <? 0) eqn:E2; [|exists []; split; [constructor|cbn; lia]].
    exists [(- overage, 0)]. split; [|cbn; lia]. constructor; [|constructor]. cbn [fst snd].
    replace (- overage) with (Z.of_N (u64 (- overage))) at 2 by (unfold u64; rewrite Z.mod_small by lia; lia).
    apply (sc_transparent _ _ _ _ _ _ sound). unfold u64. rewrite Z.mod_small by lia. lia. }
  assert (A3 : exists ex, open_all opens (match sums with Some s => [m_outputSum s] | None => [] end) ex
                          /\ sumZ (map fst ex) = a).
  { destruct sums as [s|]; [|exists []; split; [constructor|cbn; lia]].
    destruct Hs as [[r Hr] _]. exists [(a, r)]. split; [|cbn; lia]. constructor; [exact Hr|constructor]. }
  assert (A4 : exists ex, open_all opens (match sums with Some s => [m_kernelSum s] | None => [] end) ex
                          /\ sumZ (map fst ex) = 0).
  { destruct sums as [s|]; [|exists []; split; [constructor|cbn; lia]].
    destruct Hs as [_ [Hz _]]. destruct (Hz _ (or_introl eq_refl)) as [r Hr].
    exists [(0, r)]. split; [|cbn; lia]. constructor; [exact Hr|constructor]. }
  destruct A1 as [e1 [O1 E1]]. destruct A2 as [e2 [O2 E2]]. destruct A3 as [e3 [O3 E3]]. destruct A4 as [e4 [O4 E4]].
  cbv zeta in H.
  destruct (AddCommitments ((outs ++ _) ++ _) _) as [utxoSum| |] eqn:EU; cbn [obind] in H; try discriminate.
  destruct (AddCommitments (kers ++ _) []) as [kernelSum| |] eqn:EK; cbn [obind] in H; try discriminate.
  destruct (AddKernelOffset _ _ _ _) as [plus| |] eqn:EP; cbn [obind] in H; try discriminate.
  destruct (bytes_eqb utxoSum plus) eqn:EQ; [|discriminate]. apply bytes_eqb_spec in EQ.
  injection H as <-. cbn [m_outputSum m_kernelSum].
  assert (U := sc_add _ _ _ _ _ _ sound _ _ _ _ _ EU (open_app _ _ _ _ (open_app _ _ _ _ Oo O1) O3) (open_app _ _ _ _ Oi O2)).
  assert (K := sc_add _ _ _ _ _ _ sound _ _ _ _ _ EK (open_app _ _ _ _ Ok O4) (Forall2_nil _)).
  rewrite !map_app, !sumZ_app, Ei, Eo, E1, E2, E3 in U. rewrite map_app, sumZ_app, Ek, E4 in K. cbn [map] in K.
  fold (total value outs) in U. fold (total value ins) in U.
  assert (Bi := total_bound _ _ _ Hi). assert (Bo := total_bound _ _ _ Ho).
  replace (total value outs + Z.max overage 0 + a - (total value ins + Z.max (- overage) 0))
    with (total value outs - total value ins + overage + a) in U by lia.
  assert (Kz : zero_opens [kernelSum]) by (intros e [<-|[]]; eexists; exact K).
  assert (P := add_offset _ _ _ Kz EP). rewrite <- EQ in P.
  split; [|split; [eexists; exact U|exact Kz]].
  destruct (Z.eq_dec (total value outs - total value ins + overage + a) 0) as [E|NE]; [left; exact E|].
  right. destruct (P _ (or_introl eq_refl)) as [x Hx].
  exists utxoSum. eexists _, _, _, _. split; [exact U|]. split; [exact Hx|]. split; [exact NE|].
  assert (Ha : Z.abs a < 2 ^ 64) by (destruct sums as [s|]; [tauto|subst a; lia]).
  assert (N1 := zlen_nonneg ins). assert (N2 := zlen_nonneg outs).
  change (2 ^ 200) with 1606938044258990275541962092341162602522202993782792835301376.
  change (2 ^ 64) with 18446744073709551616 in *. lia.
Qed.

Lemma batch_zero Blake2b ks : BatchVerify Blake2b VerifyKernelSignatures ks = true -> zero_opens (map k_excessCommitment ks).
Proof.
  unfold BatchVerify. destruct ks as [|k ks]; [intros _ e []|].
  intros H e He. exact (sc_signature _ _ _ _ _ _ sound _ _ _ _ H He).
Qed.
Lemma body_validated Blake2b b : TxBody_Validate Blake2b VerifyRangeProofs VerifyKernelSignatures b = Ret tt ->
  VerifySorted Blake2b b = Ret tt /\ VerifyCutThrough b = Ret tt /\
  VerifyRangeProofs (map (fun o => (o_commitment o, o_rangeProof o)) (b_outputs b)) = true /\
  BatchVerify Blake2b VerifyKernelSignatures (b_kernels b) = true.
Proof.
  unfold TxBody_Validate. destruct (VerifySorted Blake2b b) as [[]| |]; cbn [obind]; try discriminate.
  destruct (VerifyCutThrough b) as [[]| |]; cbn [obind]; try discriminate.
  destruct (VerifyRangeProofs _); cbn [negb]; [|discriminate].
  destruct (BatchVerify _ _ _); cbn [negb]; [|discriminate]. auto.
Qed.

(** Every output that passed has a value. *)
Lemma values_exist cs : (forall c, In c cs -> exists v r, opens c v r /\ 0 <= v < 2 ^ 64) -> exists value, values opens value cs.
Proof.
  induction cs as [|c cs IH]; intros H; [exists (fun _ => 0); intros c []|].
  destruct (IH (fun c' Hc' => H c' (or_intror Hc'))) as [value Hv].
  destruct (H c (or_introl eq_refl)) as [v [r [Hr Hb]]].
  exists (fun x => if bytes_dec x c then v else value x). intros x Hx.
  destruct (bytes_dec x c) as [->|NE]; [split; [exact Hb|exists r; exact Hr]|].
  destruct Hx as [<-|Hx]; [contradiction|]. apply Hv, Hx.
Qed.
Lemma ranged Blake2b b c : TxBody_Validate Blake2b VerifyRangeProofs VerifyKernelSignatures b = Ret tt ->
  In c (output_commitments b) -> exists v r, opens c v r /\ 0 <= v < 2 ^ 64.
Proof.
  intros H Hc. apply body_validated in H. destruct H as [_ [_ [H _]]]. apply in_map_iff in Hc. destruct Hc as [o [<- Ho]].
  apply (sc_range _ _ _ _ _ _ sound _ _ (o_rangeProof o) H). apply in_map_iff. exists o. auto.
Qed.

Variable Blake2b : bytes -> bytes.
Variable env : Environment.
Notation TxValidate := (Transaction_Validate Blake2b VerifyRangeProofs VerifyKernelSignatures AddCommitments CommitTransparent CommitBlinded env).
Notation SelfConsistent := (VerifySelfConsistent Blake2b VerifyRangeProofs VerifyKernelSignatures AddCommitments CommitTransparent env).
Notation accept := (accept_blocks Blake2b VerifyRangeProofs VerifyKernelSignatures AddCommitments CommitTransparent CommitBlinded env).

Lemma tx_validated t h : TxValidate t h = Ret tt ->
  Tx_ValidateWeight env (t_body t) h = Ret tt /\
  TxBody_Validate Blake2b VerifyRangeProofs VerifyKernelSignatures (t_body t) = Ret tt /\
  Tx_ValidateFeatures (t_body t) = Ret tt /\
  exists overage s, sum_overage (b_kernels (t_body t)) 0 = Ret overage /\
    ValidateBodySums AddCommitments CommitTransparent CommitBlinded (t_body t) overage (t_offset t) None = Ret s.
Proof.
  unfold Transaction_Validate, Tx_ValidateKernelSums.
  destruct (Tx_ValidateWeight _ _ _) as [[]| |]; cbn [obind]; try discriminate.
  destruct (TxBody_Validate _ _ _ _) as [[]| |]; cbn [obind]; try discriminate.
  destruct (Tx_ValidateFeatures _) as [[]| |]; cbn [obind]; try discriminate.
  destruct (sum_overage _ _) as [ov| |]; cbn [obind]; try discriminate.
  destruct (ValidateBodySums _ _ _ _ _ _ _) as [s| |] eqn:E; cbn [obind]; try discriminate.
  intros _. repeat split. exists ov, s. split; [reflexivity|exact E].
Qed.

Lemma overage_exact ks : Forall (fun k => (m_fee (k_fee k) < 1099511627776)%N) ks -> forall acc ov,
  sum_overage ks acc = Ret ov -> ov = acc + sumZ (map (fun k => Z.of_N (m_fee (k_fee k))) ks).
Proof.
  induction 1 as [|k ks Hk Hks IH]; intros acc ov; cbn [sum_overage map].
  - intros H. injection H as <-. cbn. lia.
  - cbv zeta. destruct (in_i64 _); [|discriminate]. intros H. apply IH in H.
    change (sumZ (?a :: ?l)) with (a + sumZ l). unfold i64 in H.
    replace (m_fee (k_fee k) <? 9223372036854775808)%N with true in H by lia.
    change (sumZ (Z.of_N (m_fee (k_fee k)) :: map (fun k0 => Z.of_N (m_fee (k_fee k0))) ks))
      with (Z.of_N (m_fee (k_fee k)) + sumZ (map (fun k0 => Z.of_N (m_fee (k_fee k0))) ks)). lia.
Qed.
Lemma overage_bound ks : forall acc ov, in_i64 acc = true -> sum_overage ks acc = Ret ov -> in_i64 ov = true.
Proof.
  induction ks as [|k ks IH]; intros acc ov Ha; cbn [sum_overage]; [intros H; injection H as <-; exact Ha|].
  cbv zeta. destruct (in_i64 (acc + _)) eqn:E; [|discriminate]. apply IH, E.
Qed.

Lemma tx_conserves value t h : TxValidate t h = Ret tt ->
  Forall (fun k => (m_fee (k_fee k) < 1099511627776)%N) (b_kernels (t_body t)) ->
  zlen (b_inputs (t_body t)) < 2 ^ 64 -> zlen (b_outputs (t_body t)) < 2 ^ 64 ->
  values opens value (input_commitments (t_body t)) -> values opens value (output_commitments (t_body t)) ->
  total value (input_commitments (t_body t)) = total value (output_commitments (t_body t)) + total_fees (t_body t)
  \/ binding_broken opens.
Proof.
  intros H Hf Li Lo Vi Vo. apply tx_validated in H. destruct H as [_ [Hb [_ [ov [s [Hov Hs]]]]]].
  assert (Hov' := overage_exact _ Hf _ _ Hov). assert (Hovb := overage_bound _ 0 _ eq_refl Hov).
  unfold ValidateBodySums in Hs. apply body_validated in Hb. destruct Hb as [_ [_ [_ Hk]]].
  destruct (kernel_sums value _ _ _ _ _ _ _ 0 Hs Vi Vo (batch_zero _ _ Hk)) as [[E|E] _].
  - unfold in_i64 in Hovb. change (2 ^ 64) with 18446744073709551616. lia.
  - rewrite zlen_map. exact Li.
  - rewrite zlen_map. exact Lo.
  - reflexivity.
  - left. unfold total_fees, input_commitments, output_commitments. lia.
  - right. exact E.
Qed.

Lemma block_validated blk : SelfConsistent blk = Ret tt ->
  Block_VerifyWeight env blk = Ret tt /\ VerifyKernelLockHeights blk = Ret tt /\
  TxBody_Validate Blake2b VerifyRangeProofs VerifyKernelSignatures (fb_body blk) = Ret tt /\
  VerifyCoinbase AddCommitments CommitTransparent blk = Ret tt.
Proof.
  unfold VerifySelfConsistent.
  destruct (Block_VerifyWeight _ _) as [[]| |]; cbn [obind]; try discriminate.
  destruct (VerifyKernelLockHeights _) as [[]| |]; cbn [obind]; try discriminate.
  destruct (TxBody_Validate _ _ _ _) as [[]| |]; cbn [obind]; try discriminate.
  destruct (VerifyCoinbase _ _ _) as [[]| |]; cbn [obind]; try discriminate. auto.
Qed.

Definition chain_outputs (blocks : list FullBlock) := flat_map (fun blk => output_commitments (fb_body blk)) blocks.
Definition chain_inputs (blocks : list FullBlock) := flat_map (fun blk => input_commitments (fb_body blk)) blocks.

Lemma chain_conserves value blocks : forall sums final,
  accept sums blocks = Ret final ->
  (exists r, opens (m_outputSum sums) 0 r) -> zero_opens [m_kernelSum sums] ->
  Forall (fun blk => zlen (b_inputs (fb_body blk)) < 2 ^ 64 /\ zlen (b_outputs (fb_body blk)) < 2 ^ 64) blocks ->
  values opens value (chain_outputs blocks) -> values opens value (chain_inputs blocks) ->
  total value (chain_outputs blocks) = total value (chain_inputs blocks) + block_reward * zlen blocks
  \/ binding_broken opens.
Proof.
  induction blocks as [|blk blocks IH]; intros sums final; cbn [accept_blocks].
  - intros _ _ _ _ _ _. left. reflexivity.
  - intros H Ho Hk HL Vo Vi. destruct (SelfConsistent blk) as [[]| |] eqn:ES; cbn [obind] in H; try discriminate.
    destruct (ValidateBlockSums _ _ _ _ _) as [sums'| |] eqn:EB; cbn [obind] in H; try discriminate.
    unfold chain_outputs, chain_inputs in Vo, Vi. cbn [flat_map] in Vo, Vi.
    assert (Vo1 : values opens value (output_commitments (fb_body blk))) by (intros c Hc; apply Vo, in_or_app; auto).
    assert (Vi1 : values opens value (input_commitments (fb_body blk))) by (intros c Hc; apply Vi, in_or_app; auto).
    assert (Vo2 : values opens value (chain_outputs blocks)) by (intros c Hc; apply Vo, in_or_app; auto).
    assert (Vi2 : values opens value (chain_inputs blocks)) by (intros c Hc; apply Vi, in_or_app; auto).
    apply block_validated in ES. destruct ES as [_ [_ [Hb _]]]. apply body_validated in Hb. destruct Hb as [_ [_ [_ Hs]]].
    inversion_clear HL as [|? ? [L1 L2] HL']. unfold ValidateBlockSums, ValidateBodySums in EB.
    destruct (kernel_sums value _ _ _ _ _ _ _ 0 EB Vi1 Vo1 (batch_zero _ _ Hs)) as [[E|E] [[r Hr] Hk']].
    + vm_compute. reflexivity.
    + rewrite zlen_map. exact L1.
    + rewrite zlen_map. exact L2.
    + repeat split; auto.
    + unfold output_commitments, input_commitments in E.
      change (i64 (sub64 0 REWARD)) with (- 60000000000) in *.
      fold (input_commitments (fb_body blk)) in E. fold (output_commitments (fb_body blk)) in E.
      destruct (IH sums' final H) as [E'|E']; auto.
      { exists r. rewrite <- E at 1. exact Hr. }
      left. unfold chain_outputs, chain_inputs in *. cbn [flat_map]. rewrite !total_app.
      unfold block_reward in *. unfold zlen in *. cbn [length]. rewrite Nat2Z.inj_succ. lia.
    + right. exact E.
Qed.

Lemma fees_exact ks : forall acc, (acc < 2 ^ 63)%N ->
  Z.of_N acc + sumZ (map (fun k => Z.of_N (m_fee (k_fee k))) ks) < 2 ^ 63 ->
  Z.of_N (fold_left (fun sum k => add64 sum (m_fee (k_fee k))) ks acc) = Z.of_N acc + sumZ (map (fun k => Z.of_N (m_fee (k_fee k))) ks).
Proof.
  induction ks as [|k ks IH]; intros acc Ha Hb; cbn [fold_left map] in *; [cbn; lia|].
  change (sumZ (Z.of_N (m_fee (k_fee k)) :: map (fun k0 => Z.of_N (m_fee (k_fee k0))) ks))
      with (Z.of_N (m_fee (k_fee k)) + sumZ (map (fun k0 => Z.of_N (m_fee (k_fee k0))) ks)) in *.
  assert (0 <= sumZ (map (fun k0 => Z.of_N (m_fee (k_fee k0))) ks)).
  { clear. induction ks as [|k ks IH]; [cbn; lia|]. cbn [map]. change (sumZ (?a :: ?l)) with (a + sumZ l). unfold sumZ in *. cbn [fold_right]. lia. }
  change (2 ^ 63)%N with 9223372036854775808%N in *. change (2 ^ 63) with 9223372036854775808 in *.
  rewrite add64_small by lia. rewrite IH; lia.
Qed.
Lemma fees_bound ks : Forall (fun k => (m_fee (k_fee k) < 1099511627776)%N) ks ->
  0 <= sumZ (map (fun k => Z.of_N (m_fee (k_fee k))) ks) <= 1099511627776 * zlen ks.
Proof.
  induction 1 as [|k ks Hk Hks IH]; [cbn; lia|]. cbn [map]. unfold sumZ in *. cbn [fold_right].
  unfold zlen in *. cbn [length]. rewrite Nat2Z.inj_succ. lia.
Qed.

Lemma coinbase_exact value blk : SelfConsistent blk = Ret tt ->
  Forall (fun k => (m_fee (k_fee k) < 1099511627776)%N) (b_kernels (fb_body blk)) -> zlen (b_kernels (fb_body blk)) < 2 ^ 22 ->
  zlen (b_outputs (fb_body blk)) < 2 ^ 64 ->
  values opens value (output_commitments (fb_body blk)) ->
  total value (map o_commitment (filter output_IsCoinbase (b_outputs (fb_body blk)))) = block_reward + total_fees (fb_body blk)
  \/ binding_broken opens.
Proof.
  intros H Hf Hl Lo Vo. apply block_validated in H. destruct H as [_ [_ [Hb H]]]. apply body_validated in Hb. destruct Hb as [_ [_ [_ Hs]]].
  apply batch_zero in Hs. unfold VerifyCoinbase in H. cbv zeta in H.
  destruct (AddCommitments _ [_]) as [oa| |] eqn:EA; cbn [obind] in H; try discriminate.
  destruct (AddCommitments _ []) as [ks| |] eqn:EK; cbn [obind] in H; try discriminate.
  destruct (bytes_eqb ks oa) eqn:EQ; [|discriminate]. apply bytes_eqb_spec in EQ. subst oa. clear H.
  assert (V : values opens value (map o_commitment (filter output_IsCoinbase (b_outputs (fb_body blk))))).
  { intros c Hc. apply Vo. apply in_map_iff in Hc. destruct Hc as [o [<- Ho]]. apply filter_In in Ho. apply in_map. tauto. }
  assert (Z0 : zero_opens (map k_excessCommitment (filter kernel_IsCoinbase (b_kernels (fb_body blk))))).
  { intros c Hc. apply Hs. apply in_map_iff in Hc. destruct Hc as [o [<- Ho]]. apply filter_In in Ho. apply in_map. tauto. }
  destruct (open_values _ _ V) as [ov [Ov Ev]]. destruct (open_zero _ Z0) as [oz [Oz Ez]].
  assert (FB := fees_bound _ Hf). assert (NL := zlen_nonneg (b_kernels (fb_body blk))). change (2 ^ 22) with 4194304 in Hl.
  assert (FE := fees_exact (b_kernels (fb_body blk)) 0%N ltac:(reflexivity)
                  ltac:(change (2 ^ 63) with 9223372036854775808; lia)).
  fold (CalcFee (fb_body blk)) in FE. fold (total_fees (fb_body blk)) in FE, FB.
  set (reward := add64 REWARD (CalcFee (fb_body blk))) in *.
  assert (R : Z.of_N reward = block_reward + total_fees (fb_body blk) /\ (reward < W64)%N).
  { unfold reward, REWARD, block_reward. rewrite add64_small by lia. lia. }
  assert (T := sc_transparent _ _ _ _ _ _ sound reward (proj2 R)).
  assert (P := sc_add _ _ _ _ _ _ sound _ _ _ _ [(Z.of_N reward, 0)] EA Ov ltac:(constructor; [exact T|constructor])).
  assert (Q := sc_add _ _ _ _ _ _ sound _ _ _ _ _ EK Oz (Forall2_nil _)).
  rewrite Ev in P. fold (total value (map o_commitment (filter output_IsCoinbase (b_outputs (fb_body blk))))) in P.
  rewrite Ez in Q. cbn [map fst snd] in P, Q. assert (TB := total_bound _ _ _ V).
  set (tt' := total value _) in *. change (sumZ [?x]) with (x + 0) in P.
  destruct (Z.eq_dec tt' (block_reward + total_fees (fb_body blk))) as [E|NE]; [left; exact E|right].
  exists ks. eexists _, _, _, _. split; [exact P|]. split; [exact Q|].
  change (sumZ []) with 0. change (sumZ [Z.of_N reward]) with (Z.of_N reward + 0). split; [lia|].
  assert (FL : zlen (map o_commitment (filter output_IsCoinbase (b_outputs (fb_body blk)))) <= zlen (b_outputs (fb_body blk))).
  { rewrite zlen_map. unfold zlen. assert (L := filter_shorter output_IsCoinbase (b_outputs (fb_body blk))). lia. }
  change (2 ^ 200) with 1606938044258990275541962092341162602522202993782792835301376.
  change (2 ^ 64) with 18446744073709551616 in *. unfold block_reward in *. lia.
Qed.

Lemma state_exact value outputs kernels height offset s :
  ValidateStateSums AddCommitments CommitTransparent CommitBlinded outputs kernels height offset = Ret s ->
  (height < 150000000)%N -> zlen outputs < 2 ^ 64 -> values opens value outputs -> zero_opens kernels ->
  total value outputs = block_reward * (1 + Z.of_N height) \/ binding_broken opens.
Proof.
  unfold ValidateStateSums. intros H Hh L V Zk.
  assert (E : i64 (sub64 0 (mul64 REWARD (add64 1 height))) = - (block_reward * (1 + Z.of_N height))).
  { unfold REWARD, block_reward. rewrite (add64_small 1) by lia. rewrite mul64_small by lia.
    unfold sub64. rewrite N.add_0_l. rewrite N.mod_small by lia. unfold i64.
    replace (_ <? _)%N with false by lia. lia. }
  rewrite E in H. unfold block_reward in *.
  destruct (kernel_sums value _ _ _ _ _ _ _ 0 H) as [[E'|E'] _]; auto.
  - intros c [].
  - change (2 ^ 64) with 18446744073709551616. lia.
  - unfold zlen. cbn. lia.
  - left. change (total value []) with 0 in E'. lia.
Qed.
End Values.

(** * Cut-through and aggregation *)
Section CutThrough.
Local Open Scope Z_scope.

Lemma map_filter_commute {A} (key : A -> bytes) (p : bytes -> bool) l : map key (filter (fun x => p (key x)) l) = filter p (map key l).
Proof. induction l as [|x l IH]; cbn [map filter]; [reflexivity|]. destruct (p (key x)); cbn [map]; rewrite IH; reflexivity. Qed.
Definition mem (l : list bytes) (c : bytes) : bool := existsb (fun x => bytes_eqb x c) l.
Lemma mem_in l c : mem l c = true <-> In c l.
Proof.
  unfold mem. rewrite existsb_exists. split.
  - intros [x [Hx E]]. apply bytes_eqb_spec in E. subst x. exact Hx.
  - intros H. exists c. split; [exact H|apply bytes_eqb_refl].
Qed.
Lemma mem_map {A} (key : A -> bytes) l c : existsb (fun x => bytes_eqb (key x) c) l = mem (map key l) c.
Proof. unfold mem. induction l as [|x l IH]; cbn [existsb map]; [reflexivity|]. rewrite IH. reflexivity. Qed.
Lemma filter_ext' {A} (f g : A -> bool) l : (forall x, f x = g x) -> filter f l = filter g l.
Proof. intros H. induction l as [|x l IH]; cbn [filter]; [reflexivity|]. rewrite H, IH. reflexivity. Qed.

Lemma cut_through_commitments ins outs ins' outs' : PerformCutThrough ins outs = (ins', outs') ->
  map i_commitment ins' = filter (fun c => negb (mem (map o_commitment outs) c)) (map i_commitment ins) /\
  map o_commitment outs' = filter (fun c => negb (mem (map i_commitment ins) c)) (map o_commitment outs).
Proof.
  unfold PerformCutThrough. intros H. injection H as <- <-. split.
  - rewrite <- map_filter_commute. f_equal. apply filter_ext'. intros i. rewrite mem_map. reflexivity.
  - rewrite <- map_filter_commute. f_equal. apply filter_ext'. intros i. rewrite mem_map. reflexivity.
Qed.
Lemma filter_split value p l : total value l = total value (filter p l) + total value (filter (fun c => negb (p c)) l).
Proof.
  induction l as [|c l IH]; [reflexivity|]. cbn [filter]. destruct (p c); cbn [negb]; rewrite !total_cons; lia.
Qed.
Lemma cut_through_balance value ins outs ins' outs' : PerformCutThrough ins outs = (ins', outs') ->
  NoDup (map i_commitment ins) -> NoDup (map o_commitment outs) ->
  total value (map o_commitment outs') - total value (map i_commitment ins') =
  total value (map o_commitment outs) - total value (map i_commitment ins).
Proof.
  intros H N1 N2. apply cut_through_commitments in H. destruct H as [-> ->].
  set (I := map i_commitment ins) in *. set (O := map o_commitment outs) in *.
  rewrite (filter_split value (mem I) O), (filter_split value (mem O) I).
  enough (total value (filter (mem I) O) = total value (filter (mem O) I)) by lia.
  apply total_perm. apply NoDup_Permutation.
  - apply NoDup_filter, N2.
  - apply NoDup_filter, N1.
  - intros c. rewrite !filter_In, !mem_in. tauto.
Qed.
Lemma cut_through_disjoint ins outs ins' outs' c : PerformCutThrough ins outs = (ins', outs') ->
  In c (map i_commitment ins') -> In c (map o_commitment outs') -> False.
Proof.
  intros H H1 H2. apply cut_through_commitments in H. destruct H as [E1 E2]. rewrite E1 in H1. rewrite E2 in H2.
  apply filter_In in H1. apply filter_In in H2. destruct H1 as [H1 H1']. destruct H2 as [H2 _].
  apply mem_in in H2. rewrite H2 in H1'. discriminate.
Qed.
Lemma cut_through_kept ins outs ins' outs' : PerformCutThrough ins outs = (ins', outs') ->
  (forall i, In i ins' <-> In i ins /\ ~ In (i_commitment i) (map o_commitment outs)) /\
  (forall o, In o outs' <-> In o outs /\ ~ In (o_commitment o) (map i_commitment ins)).
Proof.
  unfold PerformCutThrough. intros H. injection H as <- <-. split.
  - intros i. rewrite filter_In, mem_map, negb_true_iff, <- not_true_iff_false, mem_in. reflexivity.
  - intros o. rewrite filter_In, mem_map, negb_true_iff, <- not_true_iff_false, mem_in. reflexivity.
Qed.

Lemma aggregate_many Blake2b AddBF t1 t2 ts t : Aggregate Blake2b AddBF (t1 :: t2 :: ts) = Ret t ->
  exists ins outs, PerformCutThrough (flat_map (fun t => b_inputs (t_body t)) (t1 :: t2 :: ts))
                     (flat_map (fun t => b_outputs (t_body t)) (t1 :: t2 :: ts)) = (ins, outs) /\
    AddBF (map t_offset (t1 :: t2 :: ts)) [] = Ret (t_offset t) /\
    Permutation ins (b_inputs (t_body t)) /\ Permutation outs (b_outputs (t_body t)) /\
    Permutation (flat_map (fun t => b_kernels (t_body t)) (t1 :: t2 :: ts)) (b_kernels (t_body t)).
Proof.
  unfold Aggregate. destruct (PerformCutThrough _ _) as [ins outs]. cbv zeta iota beta.
  destruct (AddBF _ _) as [off| |]; cbn [obind]; try discriminate.
  intros H. injection H as <-. exists ins, outs. cbn [t_offset t_body Body_sorted b_inputs b_outputs b_kernels].
  repeat split; apply sort_perm.
Qed.
Lemma flat_total {A B} (value : bytes -> Z) (key : B -> bytes) (part : A -> list B) l :
  total value (map key (flat_map part l)) = sumZ (map (fun t => total value (map key (part t))) l).
Proof.
  induction l as [|t l IH]; [reflexivity|]. cbn [flat_map map]. rewrite map_app, total_app, IH. reflexivity.
Qed.
Lemma fees_flat (l : list Transaction) : sumZ (map (fun k => Z.of_N (m_fee (k_fee k))) (flat_map (fun t => b_kernels (t_body t)) l)) =
  sumZ (map (fun t => total_fees (t_body t)) l).
Proof.
  induction l as [|t l IH]; [reflexivity|]. cbn [flat_map map]. rewrite map_app, sumZ_app, IH. reflexivity.
Qed.
Lemma sum_pointwise {A} (f g h : A -> Z) l : (forall t, In t l -> f t = g t + h t) ->
  sumZ (map f l) = sumZ (map g l) + sumZ (map h l).
Proof.
  unfold sumZ. induction l as [|t l IH]; intros H; [reflexivity|]. cbn [map fold_right].
  rewrite (H t (or_introl eq_refl)), IH by (intros; apply H; right; assumption). lia.
Qed.
Lemma aggregate_balance Blake2b AddBF value l t : Aggregate Blake2b AddBF l = Ret t ->
  NoDup (map i_commitment (flat_map (fun t => b_inputs (t_body t)) l)) ->
  NoDup (map o_commitment (flat_map (fun t => b_outputs (t_body t)) l)) ->
  (forall x, In x l -> total value (input_commitments (t_body x)) = total value (output_commitments (t_body x)) + total_fees (t_body x)) ->
  total value (input_commitments (t_body t)) = total value (output_commitments (t_body t)) + total_fees (t_body t).
Proof.
  intros H N1 N2 HB. destruct l as [|t1 [|t2 ts]]; [discriminate|injection H as ->; apply HB; left; reflexivity|].
  apply aggregate_many in H. destruct H as [ins [outs [HC [_ [P1 [P2 P3]]]]]].
  assert (B := cut_through_balance value _ _ _ _ HC N1 N2).
  rewrite !flat_total in B.
  assert (S := sum_pointwise _ _ _ _ HB). rewrite <- fees_flat in S.
  unfold total_fees. rewrite <- (sumZ_perm _ _ (Permutation_map _ P3)).
  unfold input_commitments, output_commitments in *.
  rewrite <- (total_perm value _ _ (Permutation_map _ P1)), <- (total_perm value _ _ (Permutation_map _ P2)). lia.
Qed.
End CutThrough.
