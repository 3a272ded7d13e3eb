(** Proofs about the bit packing of seed phrases. *)
From Coq Require Import Ascii String.
From Verif Require Import Base Bytes FileModel TextModel TextSpec TextProofs TextCheck WordListData MnemonicModel MnemonicSpec.
Local Open Scope N_scope.
Local Open Scope list_scope.

Definition at_ (l : list N) (i : N) : N := nth (N.to_nat i) l 0.

Lemma or_at_ok v : forall i x, (i < length v)%nat ->
  exists v', or_at v i x = Ret v' /\ length v' = length v /\
    forall j, nth j v' 0 = if Nat.eqb j i then N.lor (nth j v 0) x else nth j v 0.
Proof.
  induction v as [|y v IH]; intros i x Hi; [cbn in Hi; lia|]. destruct i as [|i]; cbn [or_at].
  - eexists. split; [reflexivity|]. split; [reflexivity|]. intros [|j]; reflexivity.
  - cbn in Hi. destruct (IH i x ltac:(lia)) as (v' & E & L & H). rewrite E. cbn [obind].
    eexists. split; [reflexivity|]. split; [cbn; congruence|]. intros [|j]; [reflexivity|]. cbn. apply H.
Qed.

Lemma or_at_at v i x : i < nlen v ->
  exists v', or_at v (N.to_nat i) x = Ret v' /\ nlen v' = nlen v /\
    forall j, at_ v' j = if j =? i then N.lor (at_ v j) x else at_ v j.
Proof.
  intros Hi. unfold nlen in *. destruct (or_at_ok v (N.to_nat i) x ltac:(lia)) as (v' & E & L & H).
  exists v'. split; [exact E|]. split; [congruence|]. intros j. unfold at_. rewrite H.
  destruct (N.eqb_spec j i) as [->|Hj]; [rewrite Nat.eqb_refl; reflexivity|].
  destruct (Nat.eqb_spec (N.to_nat j) (N.to_nat i)); [lia|reflexivity].
Qed.

Lemma get_bit_spec x k : get_bit x k = N.b2n (N.testbit x k).
Proof.
  unfold get_bit. destruct (N.testbit x k) eqn:E.
  - destruct (N.eqb_spec (N.land x (N.shiftl 1 k)) 0) as [H|H]; [|reflexivity].
    apply (f_equal (fun y => N.testbit y k)) in H. rewrite N.land_spec, N.bits_0, E, N.shiftl_spec_high', N.sub_diag in H by lia. discriminate H.
  - destruct (N.eqb_spec (N.land x (N.shiftl 1 k)) 0) as [H|H]; [reflexivity|exfalso; apply H].
    apply N.bits_inj_0. intros n. rewrite N.land_spec. destruct (N.eq_dec n k) as [->|Hn]; [rewrite E; reflexivity|].
    replace (N.testbit (N.shiftl 1 k) n) with false; [apply andb_false_r|]. symmetry.
    rewrite N.shiftl_1_l. apply N.pow2_bits_false. lia.
Qed.

Lemma shifted_bit (b : bool) s n : N.testbit (N.shiftl (N.b2n b) s) n = (n =? s) && b.
Proof.
  destruct b; cbn [N.b2n].
  - rewrite andb_true_r, N.shiftl_1_l, N.pow2_bits_eqb. apply N.eqb_sym.
  - rewrite andb_false_r, N.shiftl_0_l. apply N.bits_0.
Qed.

(* ------------------------------------------------------------------ packing into words *)
Definition enc (w : list N) (loc : N) (b : N -> bool) : Prop :=
  loc <= 11 * nlen w /\
  forall j n, N.testbit (at_ w j) n = (n <? 11) && (11 * j + 10 - n <? loc) && b (11 * j + 10 - n).

Lemma put_bit_ok w loc b x k : enc w loc b -> loc < 11 * nlen w -> N.testbit x k = b loc ->
  exists w', put_bit (w, loc) (get_bit x k) = Ret (w', loc + 1) /\ enc w' (loc + 1) b /\ nlen w' = nlen w.
Proof.
  intros [Hl He] Hlt Hb. unfold put_bit. rewrite get_bit_spec, Hb.
  destruct (or_at_at w (loc / 11) (N.shiftl (N.b2n (b loc)) (10 - loc mod 11))) as (w' & E & L & H).
  - apply N.div_lt_upper_bound; lia.
  - exists w'. rewrite E. cbn [obind]. split; [reflexivity|]. split; [|exact L]. split; [rewrite L; lia|].
    intros j n. rewrite H. destruct (N.eqb_spec j (loc / 11)) as [->|Hj].
    + rewrite N.lor_spec, shifted_bit, He.
      destruct (N.ltb_spec n 11); cbn [andb].
      2: { replace (n =? 10 - loc mod 11) with false by (symmetry; apply N.eqb_neq; lia). reflexivity. }
      destruct (N.eqb_spec n (10 - loc mod 11)) as [->|Hn].
      * replace (11 * (loc / 11) + 10 - (10 - loc mod 11)) with loc by lia.
        rewrite N.ltb_irrefl. replace (loc <? loc + 1) with true by (symmetry; apply N.ltb_lt; lia). reflexivity.
      * cbn [andb]. rewrite orb_false_r.
        destruct (N.ltb_spec (11 * (loc / 11) + 10 - n) loc), (N.ltb_spec (11 * (loc / 11) + 10 - n) (loc + 1)); try reflexivity; lia.
    + rewrite He. destruct (N.ltb_spec n 11); cbn [andb]; [|reflexivity].
      destruct (N.ltb_spec (11 * j + 10 - n) loc), (N.ltb_spec (11 * j + 10 - n) (loc + 1)); try reflexivity; lia.
Qed.

Lemma put_bits_ok x b : forall j w loc, enc w loc b -> loc + N.of_nat j <= 11 * nlen w ->
  (forall t, t < N.of_nat j -> b (loc + t) = N.testbit x (N.of_nat j - 1 - t)) ->
  exists w', put_bits x j (w, loc) = Ret (w', loc + N.of_nat j) /\ enc w' (loc + N.of_nat j) b /\ nlen w' = nlen w.
Proof.
  induction j as [|j IH]; intros w loc He Hl Hb; cbn [put_bits].
  - exists w. rewrite N.add_0_r. auto.
  - destruct (put_bit_ok w loc b x (N.of_nat j) He ltac:(lia)) as (w1 & E1 & He1 & L1).
    { specialize (Hb 0 ltac:(lia)). rewrite N.add_0_r in Hb. rewrite Hb. f_equal. lia. }
    rewrite E1. cbn [obind].
    destruct (IH w1 (loc + 1) He1) as (w2 & E2 & He2 & L2).
    + rewrite L1. lia.
    + intros t Ht. replace (loc + 1 + t) with (loc + (t + 1)) by lia. rewrite Hb by lia. f_equal. lia.
    + exists w2. rewrite E2. replace (loc + 1 + N.of_nat j) with (loc + N.of_nat (S j)) in * by lia.
      split; [reflexivity|]. split; [exact He2|congruence].
Qed.

Lemma put_bytes_ok b : forall e w loc, enc w loc b -> loc + 8 * nlen e <= 11 * nlen w ->
  (forall t, t < 8 * nlen e -> b (loc + t) = N.testbit (at_ e (t / 8)) (7 - t mod 8)) ->
  exists w', put_bytes e (w, loc) = Ret (w', loc + 8 * nlen e) /\ enc w' (loc + 8 * nlen e) b /\ nlen w' = nlen w.
Proof.
  induction e as [|x e IH]; intros w loc He Hl Hb; cbn [put_bytes].
  - exists w. change (nlen []) with 0. rewrite N.mul_0_r, N.add_0_r. auto.
  - assert (Ln : nlen (x :: e) = nlen e + 1) by (unfold nlen; cbn [length]; lia). rewrite Ln in *.
    destruct (put_bits_ok x b 8 w loc He ltac:(lia)) as (w1 & E1 & He1 & L1).
    { intros t Ht. change (N.of_nat 8) with 8 in *. rewrite Hb by lia. replace (t / 8) with 0 by lia. change (at_ (x :: e) 0) with x. f_equal. lia. }
    rewrite E1. cbn [obind]. change (N.of_nat 8) with 8 in *.
    destruct (IH w1 (loc + 8) He1) as (w2 & E2 & He2 & L2).
    + rewrite L1. lia.
    + intros t Ht. replace (loc + 8 + t) with (loc + (t + 8)) by lia. rewrite Hb by lia.
      replace ((t + 8) / 8) with (t / 8 + 1) by lia. replace ((t + 8) mod 8) with (t mod 8) by lia.
      f_equal. unfold at_. replace (N.to_nat (t / 8 + 1)) with (S (N.to_nat (t / 8))) by lia. reflexivity.
    + exists w2. rewrite E2. replace (loc + 8 + 8 * nlen e) with (loc + 8 * (nlen e + 1)) in * by lia.
      split; [reflexivity|]. split; [exact He2|congruence].
Qed.

(* ------------------------------------------------------------------ unpacking into bytes *)
Definition dec (e : list N) (loc : N) (c : N -> bool) : Prop :=
  loc <= 8 * nlen e /\
  forall j n, j < nlen e -> N.testbit (at_ e j) n =
    (n <? 8) && (8 * (nlen e - 1 - j) + n <? loc) && c (8 * (nlen e - 1 - j) + n).

Lemma take_bits_ok w c : forall n k e loc, dec e loc c -> loc + N.of_nat n <= 8 * nlen e ->
  (forall t, t < N.of_nat n -> c (loc + t) = N.testbit w (k + t)) ->
  exists e', take_bits w (nlen e - 1) n k (e, loc) = Ret (e', loc + N.of_nat n) /\ dec e' (loc + N.of_nat n) c /\ nlen e' = nlen e.
Proof.
  induction n as [|n IH]; intros k e loc [Hl He] Hle Hc; cbn [take_bits].
  - exists e. rewrite N.add_0_r. split; [reflexivity|]. split; [split; assumption|reflexivity].
  - destruct (or_at_at e (nlen e - 1 - loc / 8) (N.shiftl (get_bit w k) (loc mod 8))) as (e1 & E1 & L1 & H1).
    { assert (0 < nlen e) by lia. lia. }
    rewrite E1. cbn [obind]. rewrite <- L1.
    destruct (IH (k + 1) e1 (loc + 1)) as (e2 & E2 & He2 & L2).
    + split; [rewrite L1; lia|]. rewrite L1. intros j m Hj. rewrite H1.
      assert (Hb : N.testbit w k = c loc). { specialize (Hc 0 ltac:(lia)). rewrite !N.add_0_r in Hc. congruence. }
      rewrite get_bit_spec, Hb. assert (Hq : loc / 8 < nlen e) by lia.
      destruct (N.eqb_spec j (nlen e - 1 - loc / 8)) as [->|Hne].
      * rewrite N.lor_spec, shifted_bit, He by lia.
        replace (nlen e - 1 - (nlen e - 1 - loc / 8)) with (loc / 8) by lia.
        destruct (N.ltb_spec m 8); cbn [andb].
        2: { replace (m =? loc mod 8) with false by (symmetry; apply N.eqb_neq; lia). reflexivity. }
        destruct (N.eqb_spec m (loc mod 8)) as [->|Hm].
        -- replace (8 * (loc / 8) + loc mod 8) with loc by lia.
           rewrite N.ltb_irrefl. replace (loc <? loc + 1) with true by (symmetry; apply N.ltb_lt; lia). reflexivity.
        -- cbn [andb]. rewrite orb_false_r.
           destruct (N.ltb_spec (8 * (loc / 8) + m) loc), (N.ltb_spec (8 * (loc / 8) + m) (loc + 1)); try reflexivity; lia.
      * rewrite He by exact Hj. destruct (N.ltb_spec m 8); cbn [andb]; [|reflexivity].
        remember (nlen e) as L. 
        destruct (N.ltb_spec (8 * (L - 1 - j) + m) loc), (N.ltb_spec (8 * (L - 1 - j) + m) (loc + 1)); try reflexivity; lia.
    + rewrite L1. lia.
    + intros t Ht. replace (loc + 1 + t) with (loc + (t + 1)) by lia. rewrite Hc by lia. f_equal. lia.
    + exists e2. rewrite E2. replace (loc + 1 + N.of_nat n) with (loc + N.of_nat (S n)) in * by lia.
      split; [reflexivity|]. split; [exact He2|congruence].
Qed.

Lemma take_words_ok c : forall ws e loc, dec e loc c -> loc + 11 * nlen ws <= 8 * nlen e ->
  (forall t, t < 11 * nlen ws -> c (loc + t) = N.testbit (at_ ws (t / 11)) (t mod 11)) ->
  exists e', take_words ws (nlen e - 1) (e, loc) = Ret (e', loc + 11 * nlen ws) /\ dec e' (loc + 11 * nlen ws) c /\ nlen e' = nlen e.
Proof.
  induction ws as [|w ws IH]; intros e loc He Hl Hc; cbn [take_words].
  - exists e. change (nlen []) with 0. rewrite N.mul_0_r, N.add_0_r. auto.
  - assert (Ln : nlen (w :: ws) = nlen ws + 1) by (unfold nlen; cbn [length]; lia). rewrite Ln in *.
    destruct (take_bits_ok w c 11 0 e loc He ltac:(lia)) as (e1 & E1 & He1 & L1).
    { intros t Ht. change (N.of_nat 11) with 11 in *. rewrite Hc by lia. replace (t / 11) with 0 by lia. change (at_ (w :: ws) 0) with w. f_equal. lia. }
    rewrite E1. cbn [obind]. change (N.of_nat 11) with 11 in *. rewrite <- L1.
    destruct (IH e1 (loc + 11) He1) as (e2 & E2 & He2 & L2).
    + rewrite L1. lia.
    + intros t Ht. replace (loc + 11 + t) with (loc + (t + 11)) by lia. rewrite Hc by lia.
      replace ((t + 11) / 11) with (t / 11 + 1) by lia. replace ((t + 11) mod 11) with (t mod 11) by lia.
      f_equal. unfold at_. replace (N.to_nat (t / 11 + 1)) with (S (N.to_nat (t / 11))) by lia. reflexivity.
    + exists e2. rewrite E2. replace (loc + 11 + 11 * nlen ws) with (loc + 11 * (nlen ws + 1)) in * by lia.
      split; [reflexivity|]. split; [exact He2|congruence].
Qed.

(* ------------------------------------------------------------------ the relation, bit by bit *)
Section WithHash.
Variable SHA256 : bytes -> bytes.

Definition stream (e : bytes) (p : N) : bool :=
  if p <? 8 * nlen e then N.testbit (at_ e (p / 8)) (7 - p mod 8)
  else N.testbit (nth 0 (SHA256 e) 0) (7 - (p - 8 * nlen e)).

Definition related (e : bytes) (w : list N) (k : N) : Prop :=
  nlen e = 4 * k /\ nlen w = 3 * k /\
  forall j n, j < 3 * k -> N.testbit (at_ w j) n = (n <? 11) && stream e (11 * j + 10 - n).

Lemma mask_ones k : k <= 8 -> (N.shiftl 1 k - 1) mod 256 = N.ones k.
Proof.
  intros H. rewrite N.shiftl_1_l, N.ones_equiv, N.sub_1_r. apply N.mod_small.
  assert (2 ^ k <= 2 ^ 8) by (apply N.pow_le_mono_r; lia). change (2 ^ 8) with 256 in *.
  assert (2 ^ k <> 0) by (apply N.pow_nonzero; lia). lia.
Qed.

Lemma ones_bit k n : N.testbit (N.ones k) n = (n <? k).
Proof.
  destruct (N.ltb_spec n k); [apply N.ones_spec_low; assumption|apply N.ones_spec_high; assumption].
Qed.

Lemma checksum_ok e k : k <= 8 -> exists x, checksum_of SHA256 e k = Ret x /\
  forall n, N.testbit x n = N.testbit (nth 0 (SHA256 e) 0) (n + (8 - k)) && (n <? k).
Proof.
  intros H. unfold checksum_of. destruct (N.ltb_spec 8 k); [lia|]. eexists. split; [reflexivity|].
  intros n. rewrite N.land_spec, N.shiftr_spec', mask_ones, ones_bit by assumption. reflexivity.
Qed.

Lemma at_repeat m j : at_ (repeat 0 m) j = 0.
Proof. unfold at_. apply nth_repeat. Qed.

Lemma word_indices_ok e k : nlen e = 4 * k -> 1 <= k <= 8 ->
  exists w, word_indices SHA256 e = Ret w /\ related e w k.
Proof.
  intros He Hk. unfold word_indices. rewrite He.
  replace (4 * k * 8 / 32) with k by lia. replace ((4 * k * 8 + k) / 11) with (3 * k) by lia.
  set (b := stream e).
  assert (H0 : enc (repeat 0 (N.to_nat (3 * k))) 0 b).
  { split; [lia|]. intros j n. rewrite at_repeat, N.bits_0. replace (11 * j + 10 - n <? 0) with false; [rewrite andb_false_r; reflexivity|].
    symmetry. apply N.ltb_ge. lia. }
  assert (L0 : nlen (repeat 0 (N.to_nat (3 * k))) = 3 * k) by (unfold nlen; rewrite repeat_length; lia).
  destruct (put_bytes_ok b e _ 0 H0) as (w1 & E1 & He1 & L1).
  - rewrite L0, He. lia.
  - intros t Ht. rewrite N.add_0_l. subst b. unfold stream. destruct (N.ltb_spec t (8 * nlen e)); [reflexivity|lia].
  - rewrite E1. cbn [obind]. destruct (checksum_ok e k ltac:(lia)) as (x & Ex & Hx). rewrite Ex. cbn [obind].
    destruct (put_bits_ok x b (N.to_nat k) w1 _ He1) as (w2 & E2 & He2 & L2).
    + rewrite L1, L0, He. lia.
    + rewrite N2Nat.id. intros t Ht. rewrite Hx. subst b. unfold stream.
      destruct (N.ltb_spec (0 + 8 * nlen e + t) (8 * nlen e)); [lia|].
      destruct (N.ltb_spec (k - 1 - t) k); [|lia]. rewrite andb_true_r. f_equal. lia.
    + rewrite E2. cbn [obind fst]. exists w2. split; [reflexivity|]. split; [exact He|]. split; [congruence|].
      intros j n Hj. destruct He2 as [_ He2]. rewrite He2, N2Nat.id, He.
      replace (11 * j + 10 - n <? 0 + 8 * (4 * k) + k) with true; [rewrite andb_true_r; reflexivity|].
      symmetry. apply N.ltb_lt. lia.
Qed.

Lemma small_bits x m : x < 2 ^ m <-> forall n, m <= n -> N.testbit x n = false.
Proof.
  split.
  - intros H n Hn. destruct (N.eq_dec x 0) as [->|Hx]; [apply N.bits_0|].
    apply N.bits_above_log2. apply N.lt_le_trans with m; [apply N.log2_lt_pow2; lia|exact Hn].
  - intros H. destruct (N.eq_dec x 0) as [->|Hx]; [apply N.neq_0_lt_0, N.pow_nonzero; lia|].
    apply N.log2_lt_pow2; [lia|]. apply N.nle_gt. intros Hle. specialize (H _ Hle). rewrite N.bit_log2 in H by exact Hx. discriminate.
Qed.

Lemma small2048 w : Forall (fun x => x < 2048) w <-> forall j n, j < nlen w -> 11 <= n -> N.testbit (at_ w j) n = false.
Proof.
  rewrite Forall_forall. change 2048 with (2 ^ 11). split.
  - intros H j n Hj Hn. assert (Hi : In (at_ w j) w) by (apply nth_In; unfold nlen in Hj; lia).
    specialize (H _ Hi). apply (proj1 (small_bits _ _) H). exact Hn.
  - intros H x Hx. destruct (In_nth _ _ 0 Hx) as (i & Hi & <-). apply small_bits. intros n Hn.
    specialize (H (N.of_nat i) n ltac:(unfold nlen; lia) Hn). unfold at_ in H. rewrite Nat2N.id in H. exact H.
Qed.

Lemma byte_bits e : is_bytes e <-> forall j n, j < nlen e -> 8 <= n -> N.testbit (at_ e j) n = false.
Proof.
  unfold is_bytes. rewrite Forall_forall. change 256 with (2 ^ 8). split.
  - intros H j n Hj Hn. assert (Hi : In (at_ e j) e) by (apply nth_In; unfold nlen in Hj; lia).
    specialize (H _ Hi). apply (proj1 (small_bits _ _) H). exact Hn.
  - intros H x Hx. destruct (In_nth _ _ 0 Hx) as (i & Hi & <-). apply small_bits. intros n Hn.
    specialize (H (N.of_nat i) n ltac:(unfold nlen; lia) Hn). unfold at_ in H. rewrite Nat2N.id in H. exact H.
Qed.

Lemma list_bits_eq (a b : list N) : nlen a = nlen b ->
  (forall j n, j < nlen a -> N.testbit (at_ a j) n = N.testbit (at_ b j) n) -> a = b.
Proof.
  intros L H. apply nth_ext with 0 0; [unfold nlen in L; lia|]. intros i Hi. apply N.bits_inj. intros n.
  specialize (H (N.of_nat i) n ltac:(unfold nlen; lia)). unfold at_ in H. rewrite Nat2N.id in H. exact H.
Qed.

(** the word indices produced are the only related ones *)
Lemma related_unique e w w' k : related e w k -> related e w' k -> w = w'.
Proof.
  intros (_ & L & H) (_ & L' & H'). apply list_bits_eq; [congruence|]. intros j n Hj. rewrite L in Hj. rewrite H, H' by exact Hj. reflexivity.
Qed.

Definition unpacked (w : list N) (k q : N) : bool := N.testbit (at_ w (3 * k - 1 - (q + k) / 11)) ((q + k) mod 11).

Lemma last_at w : w <> [] -> last w 0 = at_ w (nlen w - 1).
Proof.
  intros H. destruct (exists_last H) as (l & x & ->). rewrite last_last. unfold at_, nlen. rewrite app_length. cbn [length].
  rewrite app_nth2 by lia. replace (N.to_nat (N.of_nat (length l + 1) - 1) - length l)%nat with O by lia. reflexivity.
Qed.

Lemma rev_at w j : j < nlen w -> at_ (rev w) j = at_ w (nlen w - 1 - j).
Proof. intros H. unfold at_, nlen in *. rewrite rev_nth by lia. f_equal. lia. Qed.

Lemma entropy_bits w k : nlen w = 3 * k -> 4 <= k <= 8 -> Forall (fun x => x < 2048) w ->
  exists e x, (let* actual := checksum_of SHA256 e k in
               if negb (actual =? N.land (last w 0 mod 256) (N.ones k)) then Throw else Ret e) = entropy_of SHA256 w /\
    checksum_of SHA256 e k = Ret x /\ nlen e = 4 * k /\
    forall j n, j < 4 * k -> N.testbit (at_ e j) n = (n <? 8) && unpacked w k (8 * (4 * k - 1 - j) + n).
Proof.
  intros Lw Hk Hs. rewrite small2048 in Hs. unfold entropy_of. rewrite Lw.
  replace (3 * k / 3) with k by lia. rewrite mask_ones by lia.
  replace ((11 * (3 * k) - k) / 8 - 1) with (4 * k - 1) by lia.
  set (c := unpacked w k). set (e0 := repeat 0 (N.to_nat (4 * k - 1)) ++ [N.shiftr (last w 0) k mod 256]).
  assert (Hne : w <> []) by (intros ->; cbn in Lw; lia).
  assert (L0 : nlen e0 = 4 * k) by (unfold e0, nlen; rewrite app_length, repeat_length; cbn [length]; lia).
  assert (D0 : dec e0 (11 - k) c).
  { split; [lia|]. rewrite L0. intros j n Hj. unfold at_, e0.
    destruct (N.eq_dec j (4 * k - 1)) as [->|Hjn].
    - rewrite app_nth2 by (rewrite repeat_length; lia). rewrite repeat_length, Nat.sub_diag. cbn [nth].
      rewrite N.sub_diag, N.mul_0_r, N.add_0_l.
      change 256 with (2 ^ 8). rewrite <- N.land_ones, N.land_spec, N.shiftr_spec', ones_bit.
      rewrite (last_at w Hne), Lw. destruct (N.ltb_spec n 8); [|rewrite andb_false_r; reflexivity].
      rewrite andb_true_r. cbn [andb]. destruct (N.ltb_spec n (11 - k)); cbn [andb].
      + unfold c, unpacked. replace ((n + k) / 11) with 0 by lia. replace ((n + k) mod 11) with (n + k) by lia.
        rewrite N.sub_0_r. reflexivity.
      + apply Hs; lia.
    - rewrite app_nth1 by (rewrite repeat_length; lia). rewrite nth_repeat, N.bits_0.
      destruct (N.ltb_spec (8 * (4 * k - 1 - j) + n) (11 - k)); [lia|]. rewrite andb_false_r. reflexivity. }
  set (ws := tl (rev w)).
  assert (Ew : rev w = last w 0 :: ws).
  { unfold ws. destruct (exists_last Hne) as (l & x & ->). rewrite last_last, rev_app_distr. reflexivity. }
  assert (Ls : nlen ws = 3 * k - 1).
  { pose proof (f_equal (@length N) Ew) as Q. rewrite rev_length in Q. cbn [length] in Q. unfold nlen in *. lia. }
  assert (Aw : forall t, t < 3 * k - 1 -> at_ ws t = at_ w (3 * k - 2 - t)).
  { intros t Ht. assert (Q : at_ ws t = at_ (rev w) (t + 1)).
    { rewrite Ew. unfold at_. replace (N.to_nat (t + 1)) with (S (N.to_nat t)) by lia. reflexivity. }
    rewrite Q, rev_at by lia. f_equal. lia. }
  destruct (take_words_ok c ws e0 (11 - k) D0) as (e & E & De & Le).
  - rewrite L0, Ls. lia.
  - rewrite Ls. intros t Ht. unfold c, unpacked. rewrite Aw by lia.
    replace ((11 - k + t + k) / 11) with (t / 11 + 1) by lia. replace ((11 - k + t + k) mod 11) with (t mod 11) by lia.
    f_equal. f_equal. lia.
  - rewrite L0 in E. rewrite E. cbn [obind fst]. destruct (checksum_ok e k ltac:(lia)) as (x & Ex & _).
    exists e, x. split; [reflexivity|]. split; [exact Ex|]. split; [congruence|].
    intros j n Hj. destruct De as [_ De]. rewrite De by lia. rewrite Le, L0, Ls.
    destruct (N.ltb_spec n 8); [|reflexivity]. cbn [andb].
    destruct (N.ltb_spec (8 * (4 * k - 1 - j) + n) (11 - k + 11 * (3 * k - 1))); [reflexivity|lia].
Qed.

Lemma entropy_of_iff w k e : nlen w = 3 * k -> 4 <= k <= 8 -> Forall (fun x => x < 2048) w ->
  (entropy_of SHA256 w = Ret e <-> related e w k /\ is_bytes e) /\ entropy_of SHA256 w <> Fault.
Proof.
  intros Lw Hk Hs. destruct (entropy_bits w k Lw Hk Hs) as (e0 & x & E & Ex & Le & B). rewrite <- E. clear E.
  rewrite Ex. cbn [obind]. destruct (checksum_ok e0 k ltac:(lia)) as (x' & Ex' & Hx). rewrite Ex in Ex'. apply (f_equal (fun o => match o with Ret a => a | _ => x end)) in Ex'. cbv beta iota in Ex'. subst x'.
  assert (Hne : w <> []) by (intros ->; cbn in Lw; lia).
  rewrite (last_at w Hne), Lw.
  set (y := N.land (at_ w (3 * k - 1) mod 256) (N.ones k)).
  assert (Hy : forall n, N.testbit y n = N.testbit (at_ w (3 * k - 1)) n && (n <? k)).
  { intros n. unfold y. change 256 with (2 ^ 8). rewrite <- N.land_ones, !N.land_spec, !ones_bit.
    destruct (N.ltb_spec n k); [|rewrite !andb_false_r; reflexivity]. destruct (N.ltb_spec n 8); [|lia]. rewrite !andb_true_r. reflexivity. }
  pose proof Hs as Hs'. rewrite small2048 in Hs'.
  (* bits before the checksum always agree *)
  assert (R : forall j n, j < 3 * k -> n < 11 -> 11 * j + 10 - n < 32 * k ->
     N.testbit (at_ w j) n = N.testbit (at_ e0 ((11 * j + 10 - n) / 8)) (7 - (11 * j + 10 - n) mod 8)).
  { intros j n Hj Hn Hp. remember (11 * j + 10 - n) as p. rewrite B by lia.
    destruct (N.ltb_spec (7 - p mod 8) 8); [|lia]. cbn [andb]. unfold unpacked.
    replace (8 * (4 * k - 1 - p / 8) + (7 - p mod 8) + k) with (11 * (3 * k - 1 - j) + n) by lia.
    replace ((11 * (3 * k - 1 - j) + n) / 11) with (3 * k - 1 - j) by lia.
    replace ((11 * (3 * k - 1 - j) + n) mod 11) with n by lia.
    f_equal. f_equal. lia. }
  split; [|destruct (negb (x =? y)); discriminate].
  destruct (N.eqb_spec x y) as [Exy|Exy]; cbn [negb].
  - split.
    + intros Ee. apply (f_equal (fun o => match o with Ret a => a | _ => e end)) in Ee. cbv beta iota in Ee. subst e.
      split.
      * split; [exact Le|]. split; [exact Lw|]. intros j n Hj. unfold stream. rewrite Le.
        destruct (N.ltb_spec n 11) as [Hn|Hn]; cbn [andb]; [|apply Hs'; lia].
        destruct (N.ltb_spec (11 * j + 10 - n) (8 * (4 * k))) as [Hp|Hp]; [apply R; lia|].
        assert (j = 3 * k - 1) by lia. subst j. assert (Hnk : n < k) by lia.
        pose proof (f_equal (fun z => N.testbit z n) Exy) as Q. cbv beta in Q. rewrite Hx, Hy in Q.
        destruct (N.ltb_spec n k); [|lia]. rewrite !andb_true_r in Q. rewrite <- Q. f_equal. lia.
      * apply byte_bits. intros j n Hj Hn. rewrite B by lia. destruct (N.ltb_spec n 8); [lia|reflexivity].
    + intros [(Le' & _ & H) Hb]. f_equal. rewrite byte_bits in Hb. symmetry. apply list_bits_eq; [congruence|].
      intros j n Hj. rewrite B by lia. destruct (N.ltb_spec n 8); [|apply Hb; lia]. cbn [andb]. unfold unpacked.
      remember (8 * (4 * k - 1 - j) + n + k) as r. rewrite H by lia.
      destruct (N.ltb_spec (r mod 11) 11); [|lia]. cbn [andb]. unfold stream. rewrite Le'.
      replace (11 * (3 * k - 1 - r / 11) + 10 - r mod 11) with (8 * j + 7 - n) by lia.
      destruct (N.ltb_spec (8 * j + 7 - n) (8 * (4 * k))); [|lia].
      replace ((8 * j + 7 - n) / 8) with j by lia. f_equal. lia.
  - split; [discriminate|]. intros [(Le' & _ & H) Hb]. exfalso. apply Exy.
    assert (e = e0) as ->.
    { rewrite byte_bits in Hb. apply list_bits_eq; [congruence|].
      intros j n Hj. rewrite B by lia. destruct (N.ltb_spec n 8); [|apply Hb; lia]. cbn [andb]. unfold unpacked.
      remember (8 * (4 * k - 1 - j) + n + k) as r. rewrite H by lia.
      destruct (N.ltb_spec (r mod 11) 11); [|lia]. cbn [andb]. unfold stream. rewrite Le'.
      replace (11 * (3 * k - 1 - r / 11) + 10 - r mod 11) with (8 * j + 7 - n) by lia.
      destruct (N.ltb_spec (8 * j + 7 - n) (8 * (4 * k))); [|lia].
      replace ((8 * j + 7 - n) / 8) with j by lia. f_equal. lia. }
    apply N.bits_inj. intros n. rewrite Hx, Hy. destruct (N.ltb_spec n k); [|rewrite !andb_false_r; reflexivity].
    rewrite !andb_true_r. rewrite H by lia. destruct (N.ltb_spec n 11); [|lia]. cbn [andb]. unfold stream. rewrite Le'.
    destruct (N.ltb_spec (11 * (3 * k - 1) + 10 - n) (8 * (4 * k))); [lia|]. f_equal. lia.
Qed.
End WithHash.
