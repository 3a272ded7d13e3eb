(** Proofs for C52: regrouping bits, and reading and writing texts. *)
From Coq Require Import FMapPositive.
From Verif Require Import Base Bytes FileModel SerialModel TextModel Bech32Model Bech32Spec Bech32Poly.
Local Open Scope N_scope.

Lemma value_snoc B l d : value B (l ++ [d]) = value B l * B + d.
Proof. unfold value. rewrite fold_left_app. reflexivity. Qed.
Lemma value_bound B l : 0 < B -> Forall (fun d => d < B) l -> value B l < B ^ nlen l.
Proof.
  intros HB. induction l as [|d l IH] using rev_ind; intros H; [reflexivity|]. apply Forall_app in H. destruct H as [H1 H2]. inversion H2; subst.
  rewrite value_snoc. unfold nlen. rewrite app_length, Nat2N.inj_add. cbn [length]. change (N.of_nat 1) with 1. rewrite N.add_1_r, N.pow_succ_r by lia.
  specialize (IH H1). unfold nlen in IH. cbn beta in *. nia.
Qed.
Lemma value_inj B l l' : 0 < B -> Forall (fun d => d < B) l -> Forall (fun d => d < B) l' -> length l = length l' ->
  value B l = value B l' -> l = l'.
Proof.
  intros HB. revert l'. induction l as [|d l IH] using rev_ind; intros l' H H' L E.
  - destruct l'; [reflexivity|discriminate].
  - destruct l' as [|d' l' _] using rev_ind; [rewrite app_length in L; cbn in L; lia|].
    rewrite !app_length in L. cbn in L. apply Forall_app in H, H'. destruct H as [H1 H2], H' as [H1' H2']. inversion H2; inversion H2'; subst.
    cbn beta in *. rewrite !value_snoc in E. assert (value B l = value B l' /\ d = d') as [E1 ->].
    { assert (D : (value B l * B + d) / B = (value B l' * B + d') / B) by congruence.
      rewrite !N.div_add_l, !N.div_small in D by lia. split; [lia|]. nia. }
    rewrite (IH l') by (auto; lia). reflexivity.
Qed.
Lemma lor_add h x k : x < 2 ^ k -> N.lor (h * 2 ^ k) x = h * 2 ^ k + x.
Proof.
  intros H. rewrite <- N.shiftl_mul_pow2.
  assert (D : N.land (N.shiftl h k) x = 0).
  { apply N.bits_inj. intros n. rewrite N.land_spec, N.bits_0. destruct (N.lt_ge_cases n k) as [L|L].
    - rewrite N.shiftl_spec_low by exact L. reflexivity.
    - replace (N.testbit x n) with false; [apply andb_false_r|]. symmetry.
      destruct (N.eq_dec x 0) as [->|Hz]; [apply N.bits_0|]. apply N.bits_above_log2. eapply N.lt_le_trans; [|exact L].
      apply N.log2_lt_pow2; [lia|exact H]. }
  rewrite (N.add_nocarry_lxor _ _ D). symmetry. apply N.lxor_lor. exact D.
Qed.

(** ** ToBase32 *)
Ltac eight bb := assert (bb = 0 \/ bb = 1 \/ bb = 2 \/ bb = 3 \/ bb = 4 \/ bb = 5 \/ bb = 6 \/ bb = 7) as C8 by lia;
  destruct C8 as [->|[->|[->|[->|[->|[->|[->| ->]]]]]]].
Record wr (done : bytes) (bb buffer : N) (ret : list N) : Prop := mkWr {
  w_bits : bb < 8; w_five : Forall five ret;
  w_val : exists h, h < 2 ^ bb /\ buffer = h * 2 ^ (8 - bb) /\ value 32 ret * 2 ^ bb + h = value 256 done;
  w_len : 5 * nlen ret + bb = 8 * nlen done }.
Lemma nlen_snoc {A} (l : list A) x : nlen (l ++ [x]) = nlen l + 1.
Proof. unfold nlen. rewrite app_length. cbn. lia. Qed.
Lemma land248 b : b < 256 -> N.shiftr (N.land b 248) 3 = b / 8.
Proof.
  intros H. rewrite N.shiftr_land. change (N.shiftr 248 3) with (N.ones 5). rewrite N.land_ones, N.shiftr_div_pow2. change (2 ^ 3) with 8.
  change (2 ^ 5) with 32. apply N.mod_small. lia.
Qed.
Ltac pows := repeat match goal with
  | |- context [2 ^ ?k] => let v := eval vm_compute in (2 ^ k) in progress change (2 ^ k) with v
  | H : context [2 ^ ?k] |- _ => let v := eval vm_compute in (2 ^ k) in progress change (2 ^ k) with v in H end.
Lemma flush_wr done bb buffer ret : wr done bb buffer ret -> 5 <= bb ->
  wr done (bb - 5) (N.shiftl buffer 5 mod 256) (ret ++ [N.shiftr (N.land buffer 248) 3]).
Proof.
  intros [W1 W2 (h & H1 & H2 & H3) W4] Hb. assert (B : buffer < 256). { subst buffer. eight bb; pows; lia. }
  rewrite land248 by exact B. rewrite N.shiftl_mul_pow2. split.
  - lia.
  - apply Forall_app. split; [exact W2|]. constructor; [unfold five; lia|constructor].
  - exists (h mod 2 ^ (bb - 5)). rewrite value_snoc. subst buffer. eight bb; try lia; pows; lia.
  - rewrite nlen_snoc. lia.
Qed.
Lemma byte_wr done bb buffer ret b : wr done bb buffer ret -> bb < 5 -> b < 256 ->
  wr (done ++ [b]) (3 + bb) (N.shiftl b (5 - bb) mod 256) (ret ++ [N.lor (N.shiftr buffer 3) (N.shiftr b (3 + bb))]).
Proof.
  intros [W1 W2 (h & H1 & H2 & H3) W4] Hb Hbyte. rewrite N.shiftl_mul_pow2, !N.shiftr_div_pow2.
  assert (E : N.lor (buffer / 2 ^ 3) (b / 2 ^ (3 + bb)) = h * 2 ^ (5 - bb) + b / 2 ^ (3 + bb)).
  { replace (buffer / 2 ^ 3) with (h * 2 ^ (5 - bb)). 2:{ subst buffer. eight bb; try lia; pows; lia. }
    apply lor_add. eight bb; try lia; pows; lia. }
  rewrite E. split.
  - lia.
  - apply Forall_app. split; [exact W2|]. constructor; [|constructor]. unfold five. eight bb; try lia; pows; lia.
  - exists (b mod 2 ^ (3 + bb)). rewrite !value_snoc. eight bb; try lia; pows; lia.
  - rewrite !nlen_snoc. lia.
Qed.
Lemma to32_wr data : forall done bb buffer ret, is_bytes data -> wr done bb buffer ret ->
  let '(bb', buffer', ret') := to32_loop data bb buffer ret in wr (done ++ data) bb' buffer' ret'.
Proof.
  induction data as [|b data IH]; intros done bb buffer ret Hd W; cbn [to32_loop].
  - rewrite app_nil_r. exact W.
  - inversion Hd; subst. replace (done ++ b :: data) with ((done ++ [b]) ++ data) by (rewrite <- app_assoc; reflexivity).
    destruct (5 <=? bb) eqn:C.
    + apply IH; [assumption|]. pose proof (w_bits _ _ _ _ W). apply byte_wr; [|lia|assumption]. apply flush_wr; [exact W|lia].
    + apply IH; [assumption|]. apply byte_wr; [exact W|lia|assumption].
Qed.
Lemma to32_regrouped data : is_bytes data -> regrouped data (ToBase32 data).
Proof.
  intros H. unfold ToBase32. pose proof (to32_wr data [] 0 0 [] H) as W. cbn [app] in W.
  destruct (to32_loop data 0 0 []) as [[bb buffer] ret]. specialize (W ltac:(split; [lia|constructor|exists 0; vm_compute; auto|reflexivity])).
  assert (F : forall bb buffer ret, wr data bb buffer ret -> bb < 5 ->
    regrouped data (if negb (bb =? 0) then ret ++ [N.shiftr buffer 3] else ret)).
  { clear. intros bb buffer ret [W1 W2 (h & H1 & H2 & H3) W4] Hb. destruct (bb =? 0) eqn:Z; cbn [negb].
    - assert (bb = 0) by lia. subst bb. split; [exact W2|]. exists 0. split; [lia|]. split; [lia|]. pows. lia.
    - rewrite N.shiftr_div_pow2. assert (E : buffer / 2 ^ 3 = h * 2 ^ (5 - bb)) by (subst buffer; eight bb; try lia; pows; lia).
      rewrite E. split.
      + apply Forall_app. split; [exact W2|]. constructor; [|constructor]. eight bb; try lia; pows; lia.
      + exists (5 - bb). rewrite nlen_snoc, value_snoc. split; [lia|]. split; [lia|]. eight bb; try lia; pows; lia. }
  destruct (5 <=? bb) eqn:C.
  - apply F; [apply flush_wr; [exact W|lia]|]. pose proof (w_bits _ _ _ _ W). lia.
  - apply F; [exact W|lia].
Qed.

(** ** FromBase32 *)
Record rd (done : list N) (acc bits : N) (ret : bytes) : Prop := mkRd {
  r_bits : bits < 8; r_bytes : is_bytes ret;
  r_val : value 32 done = value 256 ret * 2 ^ bits + acc mod 2 ^ bits;
  r_len : 5 * nlen done = 8 * nlen ret + bits }.
Lemma acc_add acc v : v < 32 -> N.lor (N.shiftl acc 5 mod W32) v = (acc mod 134217728) * 32 + v.
Proof.
  intros H. rewrite N.shiftl_mul_pow2. replace (acc * 2 ^ 5 mod W32) with ((acc mod 134217728) * 2 ^ 5) by (pows; lia).
  apply lor_add. exact H.
Qed.
Lemma digit_rd done acc bits ret v : rd done acc bits ret -> v < 32 ->
  let acc1 := N.lor (N.shiftl acc 5 mod W32) v in
  if 8 <=? bits + 5 then rd (done ++ [v]) acc1 (bits + 5 - 8) (ret ++ [N.land (N.shiftr acc1 (bits + 5 - 8)) 255])
  else rd (done ++ [v]) acc1 (bits + 5) ret.
Proof.
  intros [R1 R2 R3 R4] Hv. cbv zeta. rewrite acc_add by exact Hv. set (a := acc mod 134217728).
  assert (Ea : a mod 2 ^ bits = acc mod 2 ^ bits). { unfold a. eight bits; pows; lia. }
  rewrite <- Ea in R3. clearbody a. clear Ea acc.
  destruct (8 <=? bits + 5) eqn:C.
  - rewrite N.shiftr_div_pow2. change 255 with (N.ones 8). rewrite N.land_ones. split.
    + lia.
    + apply Forall_app. split; [exact R2|]. constructor; [apply N.mod_upper_bound; discriminate|constructor].
    + rewrite !value_snoc, R3. eight bits; try lia; pows; lia.
    + rewrite !nlen_snoc. lia.
  - split.
    + lia.
    + exact R2.
    + rewrite !value_snoc, R3. eight bits; try lia; pows; lia.
    + rewrite !nlen_snoc. lia.
Qed.
Lemma from32_rd data : forall done acc bits ret, rd done acc bits ret ->
  if forallb (fun d => d <? 32) data
  then exists acc' bits' ret', from32_loop data acc bits ret = Ret (acc', bits', ret') /\ rd (done ++ data) acc' bits' ret'
  else from32_loop data acc bits ret = Throw.
Proof.
  induction data as [|v data IH]; intros done acc bits ret R; cbn [from32_loop forallb].
  - exists acc, bits, ret. rewrite app_nil_r. auto.
  - destruct (v <? 32) eqn:V; cbn [andb].
    + replace (31 <? v) with false by lia. pose proof (digit_rd _ _ _ _ v R ltac:(lia)) as D. cbv zeta in D |- *.
      replace (done ++ v :: data) with ((done ++ [v]) ++ data) by (rewrite <- app_assoc; reflexivity).
      destruct (8 <=? bits + 5); apply IH; exact D.
    + replace (31 <? v) with true by lia. reflexivity.
Qed.
Lemma from32_spec data d : FromBase32 data = Ret d <-> is_bytes d /\ regrouped d data.
Proof.
  unfold FromBase32. pose proof (from32_rd data [] 0 0 []) as F. specialize (F ltac:(split; [lia|constructor|reflexivity|reflexivity])).
  cbn [app] in F. destruct (forallb (fun d => d <? 32) data) eqn:A.
  2:{ rewrite F. split; [discriminate|]. intros [_ [H _]]. exfalso. assert (forallb (fun d => d <? 32) data = true); [|congruence].
      apply forallb_forall. rewrite Forall_forall in H. intros x Hx. specialize (H x Hx). cbn beta in H. lia. }
  assert (A' : Forall (fun d => d < 32) data). { apply Forall_forall. intros x Hx. rewrite forallb_forall in A. specialize (A x Hx). lia. }
  destruct F as (acc & bits & ret & -> & [R1 R2 R3 R4]). cbn [obind].
  assert (Z : N.land (N.shiftl acc (8 - bits) mod W32) 255 = (acc mod 2 ^ bits) * 2 ^ (8 - bits)).
  { change 255 with (N.ones 8). rewrite N.land_ones, N.shiftl_mul_pow2. eight bits; pows; lia. }
  rewrite Z. destruct (5 <=? bits) eqn:C; cbn [orb].
  { split; [discriminate|]. intros [_ (_ & pad & P1 & P2 & _)]. lia. }
  destruct (acc mod 2 ^ bits * 2 ^ (8 - bits) =? 0) eqn:Q; cbn [negb].
  - assert (acc mod 2 ^ bits = 0). { pose proof (N.pow_nonzero 2 (8 - bits) ltac:(discriminate)). nia. }
    split.
    + intros E. apply (f_equal (fun o => match o with Ret x => x | _ => [] end)) in E. subst d. split; [exact R2|]. split; [exact A'|].
      exists bits. split; [lia|]. split; [lia|]. rewrite R3. lia.
    + intros [Hd (_ & pad & P1 & P2 & P3)]. f_equal. assert (pad = bits) by lia. subst pad. 
      apply (value_inj 256); [lia|exact R2|exact Hd| |].
      * unfold nlen in *. lia.
      * rewrite R3 in P3. pose proof (N.pow_nonzero 2 bits ltac:(discriminate)). nia.
  - split; [discriminate|]. intros [_ (_ & pad & P1 & P2 & P3)]. exfalso. assert (pad = bits) by lia. subst pad.
    assert (acc mod 2 ^ bits = 0); [|lia]. rewrite P3 in R3. pose proof (N.pow_nonzero 2 bits ltac:(discriminate)) as Hz.
    pose proof (N.mod_upper_bound acc (2 ^ bits) Hz).
    assert ((value 256 d * 2 ^ bits) mod 2 ^ bits = (value 256 ret * 2 ^ bits + acc mod 2 ^ bits) mod 2 ^ bits) by congruence.
    rewrite N.mod_mul in H0 by exact Hz. rewrite N.add_comm, N.mod_add, N.mod_mod in H0 by exact Hz. congruence.
Qed.
Lemma regrouped_unique d l l' : regrouped d l -> regrouped d l' -> l = l'.
Proof.
  intros (A & p & P1 & P2 & P3) (A' & p' & P1' & P2' & P3'). assert (p = p') by lia. subst p'.
  apply (value_inj 32); [lia|exact A|exact A'| |congruence]. unfold nlen in *. lia.
Qed.
Lemma regrouped_same d d' l : is_bytes d -> is_bytes d' -> regrouped d l -> regrouped d' l -> d = d'.
Proof.
  intros H H' (A & p & P1 & P2 & P3) (A' & p' & P1' & P2' & P3'). assert (p = p') by lia. subst p'.
  apply (value_inj 256); [lia|exact H|exact H'| |].
  - unfold nlen in *. lia.
  - pose proof (N.pow_nonzero 2 p ltac:(discriminate)). nia.
Qed.
Lemma from_to data : is_bytes data -> FromBase32 (ToBase32 data) = Ret data.
Proof. intros H. apply from32_spec. split; [exact H|apply to32_regrouped; exact H]. Qed.
Lemma to_from l d : FromBase32 l = Ret d -> l = ToBase32 d.
Proof. intros H. apply from32_spec in H. destruct H as [H1 H2]. eapply regrouped_unique; [exact H2|apply to32_regrouped; exact H1]. Qed.
