From Coq Require Import Sorted Permutation.
From Verif Require Import Base Bytes MMRIndexModel FileModel BitmapModel BitmapProofs SerialModel SerialSpec SerialProofs CodecModel CodecSpec.
Local Open Scope N_scope.

(** * Bits of byte strings *)
Lemma testbit_small n k : n < 2 ^ k -> forall j, k <= j -> N.testbit n j = false.
Proof.
  intros H j Hj. rewrite <- (N.mod_small n (2 ^ k)) by exact H. apply N.mod_pow2_bits_high. exact Hj.
Qed.
Lemma testbit_digit b v j : b < 256 -> N.testbit (b + 256 * v) j = if j <? 8 then N.testbit b j else N.testbit v (j - 8).
Proof.
  intros H. change 256 with (2 ^ 8) in *.
  assert (E : b + 2 ^ 8 * v = N.lor b (N.shiftl v 8)).
  { rewrite N.shiftl_mul_pow2. rewrite <- N.lxor_lor, <- N.add_nocarry_lxor; [rewrite N.mul_comm; reflexivity| |].
    all: apply N.bits_inj; intros i; rewrite N.land_spec, N.bits_0; destruct (N.ltb_spec i 8).
    all: try (rewrite N.mul_pow2_bits_low by assumption; apply andb_false_r).
    all: rewrite (testbit_small b 8) by assumption; reflexivity. }
  rewrite E, N.lor_spec. destruct (N.ltb_spec j 8).
  - rewrite N.shiftl_spec_low by assumption. apply orb_false_r.
  - rewrite N.shiftl_spec_high' by assumption. rewrite (testbit_small b 8) by assumption. reflexivity.
Qed.
Lemma bits_of_bytes l : is_bytes l -> forall p, N.testbit (nth (N.to_nat (p / 8)) l 0) (p mod 8) = N.testbit (le_value l) p.
Proof.
  induction l as [|b l IH]; intros B p.
  - cbn [le_value]. destruct (N.to_nat (p / 8)); cbn [nth]; rewrite !N.bits_0; reflexivity.
  - apply Forall_cons_iff in B. destruct B as [B1 B2]. cbn [le_value]. rewrite testbit_digit by exact B1.
    destruct (N.ltb_spec p 8) as [H|H].
    + replace (p / 8) with 0 by lia. replace (p mod 8) with p by lia. reflexivity.
    + rewrite <- IH by exact B2. replace (N.to_nat (p / 8)) with (S (N.to_nat ((p - 8) / 8))) by lia.
      replace ((p - 8) mod 8) with (p mod 8) by lia. reflexivity.
Qed.
Lemma update_nth_length {A} (f : A -> A) l : forall k, length (update_nth k f l) = length l.
Proof. induction l; destruct k; cbn [update_nth length]; auto. Qed.
Lemma nth_update {A} (f : A -> A) l d : forall k i, (k < length l)%nat ->
  nth i (update_nth k f l) d = if Nat.eqb i k then f (nth i l d) else nth i l d.
Proof.
  induction l as [|x l IH]; intros k i H; cbn [length] in H; [lia|].
  destruct k, i; cbn [update_nth nth Nat.eqb]; try reflexivity. apply IH. lia.
Qed.
Lemma lor_byte a b : a < 256 -> b < 256 -> N.lor a b < 256.
Proof.
  intros Ha Hb. destruct (N.eq_dec (N.lor a b) 0) as [->|Hz]; [lia|].
  change 256 with (2 ^ 8) in *. apply N.log2_lt_pow2; [lia|]. rewrite N.log2_lor.
  apply N.max_lub_lt.
  - destruct (N.eq_dec a 0) as [->|]; [cbn; lia|]. apply N.log2_lt_pow2; [lia|exact Ha].
  - destruct (N.eq_dec b 0) as [->|]; [cbn; lia|]. apply N.log2_lt_pow2; [lia|exact Hb].
Qed.
Lemma shift1_byte k : k < 8 -> N.shiftl 1 k mod W8 = 2 ^ k /\ 2 ^ k < 256.
Proof.
  intros H. rewrite N.shiftl_1_l.
  assert (2 ^ k < 2 ^ 8) by (apply N.pow_lt_mono_r; lia). change (2 ^ 8) with 256 in H0.
  rewrite N.mod_small by exact H0. auto.
Qed.
Lemma update_bytes f l k : is_bytes l -> (forall x, x < 256 -> f x < 256) -> is_bytes (update_nth k f l).
Proof.
  intros B Hf. revert k. induction B; intros [|k]; cbn [update_nth]; constructor; auto.
  apply IHB.
Qed.
Lemma set_bit_ok l p : is_bytes l -> p < 8 * nlen l ->
  is_bytes (set_bit l p) /\ length (set_bit l p) = length l /\
  le_value (set_bit l p) = N.lor (le_value l) (2 ^ p).
Proof.
  intros B H. assert (M : p mod 8 < 8) by lia. destruct (shift1_byte _ M) as [E1 E2].
  assert (BB : is_bytes (set_bit l p)).
  { apply update_bytes; [exact B|]. intros x Hx. rewrite E1. apply lor_byte; assumption. }
  split; [exact BB|]. split; [apply update_nth_length|].
  apply N.bits_inj. intros j. rewrite <- bits_of_bytes by exact BB. unfold set_bit.
  rewrite nth_update by (unfold nlen in H; lia). rewrite N.lor_spec, <- bits_of_bytes by exact B.
  rewrite N.pow2_bits_eqb, E1.
  destruct (Nat.eqb_spec (N.to_nat (j / 8)) (N.to_nat (p / 8))) as [E|E].
  - rewrite N.lor_spec, N.pow2_bits_eqb. f_equal.
    destruct (N.eqb_spec (p mod 8) (j mod 8)), (N.eqb_spec p j); try reflexivity; exfalso; lia.
  - destruct (N.eqb_spec p j); [subst; congruence | rewrite orb_false_r; reflexivity].
Qed.

(** [nonce & (1 << bit)] *)
Lemma land_bit x k : k < 64 -> negb (N.land x (N.shiftl 1 k mod W64) =? 0) = N.testbit x k.
Proof.
  intros H. rewrite N.shiftl_1_l.
  assert (P : 2 ^ k < 2 ^ 64) by (apply N.pow_lt_mono_r; lia).
  rewrite (N.mod_small (2 ^ k)) by exact P.
  destruct (N.eqb_spec (N.land x (2 ^ k)) 0) as [E|E].
  - cbn [negb]. symmetry. assert (T : N.testbit (N.land x (2 ^ k)) k = false) by (rewrite E; apply N.bits_0).
    rewrite N.land_spec, N.pow2_bits_true, andb_true_r in T. exact T.
  - cbn [negb]. symmetry. destruct (N.testbit x k) eqn:T; [reflexivity|]. exfalso. apply E.
    apply N.bits_inj. intros j. rewrite N.land_spec, N.bits_0, N.pow2_bits_eqb.
    destruct (N.eqb_spec k j); [subst; rewrite T; reflexivity | apply andb_false_r].
Qed.
Lemma land_bit8 x k : k < 8 -> negb (N.land x (N.shiftl 1 k) =? 0) = N.testbit x k.
Proof.
  intros H. rewrite <- (land_bit x k) by lia. rewrite N.shiftl_1_l.
  assert (P : 2 ^ k < 2 ^ 64) by (apply N.pow_lt_mono_r; lia).
  rewrite (N.mod_small (2 ^ k)) by exact P. reflexivity.
Qed.

(** Setting selected bits one by one. *)
Lemma pack_fold (c : N -> bool) base L : forall l, is_bytes l -> Forall (fun b => base + b < 8 * nlen l) L ->
  let r := fold_left (fun bits bit => if c bit then set_bit bits (base + bit) else bits) L l in
  is_bytes r /\ length r = length l /\
  forall j, N.testbit (le_value r) j = N.testbit (le_value l) j || existsb (fun b => c b && (base + b =? j)) L.
Proof.
  induction L as [|b L IH]; intros l B F; cbn [fold_left existsb].
  - repeat split; auto. intros j. rewrite orb_false_r. reflexivity.
  - apply Forall_cons_iff in F. destruct F as [F1 F2].
    destruct (c b) eqn:C.
    + destruct (set_bit_ok l (base + b) B F1) as (S1 & S2 & S3).
      destruct (IH (set_bit l (base + b)) S1) as (I1 & I2 & I3).
      { unfold nlen. rewrite S2. exact F2. }
      split; [exact I1|]. split; [congruence|]. intros j. rewrite I3, S3, N.lor_spec, N.pow2_bits_eqb.
      cbn [andb]. rewrite orb_assoc. reflexivity.
    + destruct (IH l B F2) as (I1 & I2 & I3). repeat split; auto.
Qed.
Lemma exists_range c base e j : existsb (fun b => c b && (base + b =? j)) (N_range 0 e) =
  (base <=? j) && (j <? base + e) && c (j - base).
Proof.
  apply eq_true_iff_eq. rewrite existsb_exists, !andb_true_iff, N.leb_le, N.ltb_lt. split.
  - intros (b & I & H). apply in_range in I. apply andb_true_iff in H. destruct H as [H1 H2]. apply N.eqb_eq in H2.
    replace (j - base) with b by lia. repeat split; auto; lia.
  - intros ((H1 & H2) & H3). exists (j - base). rewrite in_range, H3. split; [lia|]. apply N.eqb_eq. lia.
Qed.
Lemma pack_nonce_ok e n x l : e <= 63 -> is_bytes l -> n * e + e <= 8 * nlen l ->
  is_bytes (pack_nonce e n x l) /\ length (pack_nonce e n x l) = length l /\
  le_value (pack_nonce e n x l) = N.lor (le_value l) (N.shiftl (x mod 2 ^ e) (n * e)).
Proof.
  intros He B L. unfold pack_nonce.
  assert (F : Forall (fun b => n * e + b < 8 * nlen l) (N_range 0 e)).
  { apply Forall_forall. intros b I. apply in_range in I. lia. }
  destruct (pack_fold (fun bit => negb (N.land x (N.shiftl 1 bit mod W64) =? 0)) (n * e) (N_range 0 e) l B F) as (I1 & I2 & I3).
  split; [exact I1|]. split; [exact I2|]. apply N.bits_inj. intros j. rewrite I3, N.lor_spec. f_equal. rewrite exists_range.
  destruct (N.leb_spec (n * e) j) as [H1|H1]; cbn [andb].
  - rewrite N.shiftl_spec_high' by assumption. destruct (N.ltb_spec j (n * e + e)) as [H2|H2]; cbn [andb].
    + rewrite land_bit by lia. rewrite N.mod_pow2_bits_low by lia. reflexivity.
    + rewrite N.mod_pow2_bits_high by lia. reflexivity.
  - rewrite N.shiftl_spec_low by assumption. reflexivity.
Qed.
Lemma add_shift x v e : x < 2 ^ e -> x + 2 ^ e * v = N.lor x (N.shiftl v e).
Proof.
  intros H. rewrite N.shiftl_mul_pow2, (N.mul_comm v). rewrite <- N.lxor_lor, <- N.add_nocarry_lxor; [reflexivity| |].
  all: apply N.bits_inj; intros i; rewrite N.land_spec, N.bits_0, (N.mul_comm (2 ^ e)); destruct (N.ltb_spec i e).
  all: try (rewrite N.mul_pow2_bits_low by assumption; apply andb_false_r).
  all: rewrite (testbit_small x e) by assumption; reflexivity.
Qed.
Lemma pack_nonces_ok e nonces : e <= 63 -> Forall (fun x => x < 2 ^ e) nonces -> forall n l, is_bytes l ->
  (n + nlen nonces) * e <= 8 * nlen l ->
  is_bytes (pack_nonces e n nonces l) /\ length (pack_nonces e n nonces l) = length l /\
  le_value (pack_nonces e n nonces l) = N.lor (le_value l) (N.shiftl (pack_value e nonces) (n * e)).
Proof.
  intros He F. induction F as [|x r Hx Hr IH]; intros n l B L; cbn [pack_nonces pack_value].
  - repeat split; auto. rewrite N.shiftl_0_l, N.lor_0_r. reflexivity.
  - assert (EL : nlen (x :: r) = nlen r + 1) by (unfold nlen; cbn [length]; lia). rewrite EL in L.
    assert (L1 : n * e + e <= 8 * nlen l) by (rewrite !N.mul_add_distr_r in L; lia).
    destruct (pack_nonce_ok e n x l He B L1) as (P1 & P2 & P3).
    destruct (IH (n + 1) (pack_nonce e n x l) P1) as (I1 & I2 & I3).
    { unfold nlen at 2. rewrite P2. fold (nlen l). replace (n + 1 + nlen r) with (n + (nlen r + 1)) by lia. exact L. }
    split; [exact I1|]. split; [congruence|]. rewrite I3, P3, (N.mod_small x) by exact Hx.
    rewrite add_shift by exact Hx. rewrite N.shiftl_lor, N.shiftl_shiftl, N.lor_assoc.
    do 2 f_equal. lia.
Qed.

Lemma le_value_bound l : is_bytes l -> le_value l < 256 ^ N.of_nat (length l).
Proof.
  induction 1 as [|b l Hb Hl IH]; [cbn; lia|]. cbn [le_value length].
  rewrite Nat2N.inj_succ, N.pow_succ_r'. lia.
Qed.
Lemma le_value_zeros k : le_value (repeat 0 k) = 0.
Proof. induction k; cbn [repeat le_value]; lia. Qed.
Lemma zeros_bytes k : is_bytes (repeat 0 k).
Proof. induction k; cbn [repeat]; constructor; [lia | assumption]. Qed.
Lemma cycle_len_enough e : 42 * e <= 8 * cycle_bytes_len e.
Proof. unfold cycle_bytes_len, PROOFSIZE. lia. Qed.

Lemma cycle_ok e nonces : e <= 63 -> length nonces = 42%nat -> Forall (fun x => x < 2 ^ e) nonces ->
  is_bytes (SerializeCycle e nonces) /\ nlen (SerializeCycle e nonces) = cycle_bytes_len e /\
  le_value (SerializeCycle e nonces) = pack_value e nonces.
Proof.
  intros He L F. unfold SerializeCycle.
  destruct (pack_nonces_ok e nonces He F 0 (repeat 0 (N.to_nat (cycle_bytes_len e))) (zeros_bytes _)) as (P1 & P2 & P3).
  - unfold nlen. rewrite repeat_length, L. pose proof (cycle_len_enough e). lia.
  - rewrite le_value_zeros, N.lor_0_l, N.mul_0_l, N.shiftl_0_r in P3.
    split; [exact P1|]. split; [|exact P3]. unfold nlen. rewrite P2, repeat_length. lia.
Qed.
Lemma cycle_format e nonces : e <= 63 -> length nonces = 42%nat -> Forall (fun x => x < 2 ^ e) nonces ->
  SerializeCycle e nonces = le_bytes (N.to_nat ((42 * e + 7) / 8)) (pack_value e nonces).
Proof.
  intros He L F. destruct (cycle_ok e nonces He L F) as (P1 & P2 & P3).
  rewrite <- (le_bytes_le_value _ P1) at 1. rewrite P3. f_equal.
  unfold nlen, cycle_bytes_len, PROOFSIZE in P2. rewrite (N.mul_comm e) in P2. lia.
Qed.

(** Reading selected bits one by one. *)
Lemma unpack_fold (c : N -> bool) L : Forall (fun b => b < 64) L -> forall acc j,
  N.testbit (fold_left (fun a bit => if c bit then N.lor a (N.shiftl 1 bit mod W64) else a) L acc) j =
  N.testbit acc j || existsb (fun b => c b && (0 + b =? j)) L.
Proof.
  induction 1 as [|b L Hb HL IH]; intros acc j; cbn [fold_left existsb].
  - rewrite orb_false_r. reflexivity.
  - rewrite IH. rewrite N.add_0_l. destruct (c b); cbn [andb].
    + rewrite N.lor_spec, N.shiftl_1_l.
      assert (P : 2 ^ b < 2 ^ 64) by (apply N.pow_lt_mono_r; lia).
      rewrite (N.mod_small (2 ^ b)) by exact P. rewrite N.pow2_bits_eqb, orb_assoc. reflexivity.
    + reflexivity.
Qed.
Lemma unpack_ok bits e n : is_bytes bits -> e <= 63 ->
  unpack_nonce bits e n = (le_value bits / 2 ^ (n * e)) mod 2 ^ e.
Proof.
  intros B He. unfold unpack_nonce. apply N.bits_inj. intros j. cbv zeta.
  rewrite (unpack_fold (fun bit => negb (N.land (nth (N.to_nat ((n * e + bit) / 8)) bits 0) (N.shiftl 1 (((n * e + bit) mod W8) mod 8)) =? 0))).
  2:{ apply Forall_forall. intros b I. apply in_range in I. lia. }
  rewrite N.bits_0. cbn [orb]. rewrite exists_range. rewrite N.add_0_l, N.sub_0_r.
  destruct (N.leb_spec 0 j); [|lia]. cbn [andb].
  destruct (N.ltb_spec j e) as [H1|H1]; cbn [andb].
  - rewrite N.mod_pow2_bits_low by exact H1. rewrite N.div_pow2_bits.
    rewrite land_bit8 by lia. replace (((n * e + j) mod W8) mod 8) with ((n * e + j) mod 8).
    + rewrite bits_of_bytes by exact B. f_equal. lia.
    + clear. generalize (n * e + j). intros x. lia.
  - rewrite N.mod_pow2_bits_high by exact H1. reflexivity.
Qed.
Lemma N_range_S n : N_range 0 (n + 1) = N_range 0 n ++ [n].
Proof.
  unfold N_range. replace (N.to_nat (n + 1 - 0)) with (S (N.to_nat (n - 0))) by lia.
  rewrite seq_S, map_app. cbn [map]. do 2 f_equal. lia.
Qed.
Lemma digits_of_pack e nonces : Forall (fun x => x < 2 ^ e) nonces ->
  map (fun n => (pack_value e nonces / 2 ^ (n * e)) mod 2 ^ e) (N_range 0 (nlen nonces)) = nonces.
Proof.
  induction 1 as [|x r Hx Hr IH]; [reflexivity|].
  assert (EL : nlen (x :: r) = nlen r + 1) by (unfold nlen; cbn [length]; lia).
  unfold N_range in *. rewrite EL. replace (N.to_nat (nlen r + 1 - 0)) with (S (N.to_nat (nlen r - 0))) by lia.
  cbn [seq map]. assert (P : 2 ^ e <> 0) by (apply N.pow_nonzero; lia). f_equal.
  - cbn [N.of_nat]. rewrite N.add_0_l, N.mul_0_l, N.pow_0_r, N.div_1_r. cbn [pack_value].
    rewrite N.mul_comm, N.mod_add by exact P. apply N.mod_small. exact Hx.
  - rewrite <- seq_shift, map_map, map_map. rewrite map_map in IH. etransitivity; [|exact IH].
    apply map_ext. intros k. rewrite Nat2N.inj_succ. cbn [pack_value].
    replace ((0 + N.succ (N.of_nat k)) * e) with (e + (0 + N.of_nat k) * e) by lia.
    rewrite N.pow_add_r, <- N.div_div by (try exact P; apply N.pow_nonzero; lia).
    replace ((x + 2 ^ e * pack_value e r) / 2 ^ e) with (pack_value e r); [reflexivity|].
    rewrite N.mul_comm, N.div_add by exact P. rewrite N.div_small by exact Hx. reflexivity.
Qed.
Lemma pack_of_digits e v k :
  pack_value e (map (fun n => (v / 2 ^ (n * e)) mod 2 ^ e) (N_range 0 (N.of_nat k))) = v mod 2 ^ (N.of_nat k * e).
Proof.
  assert (P : 2 ^ e <> 0) by (apply N.pow_nonzero; lia).
  revert v. induction k as [|k IH]; intros v.
  - cbn. rewrite N.mod_1_r. reflexivity.
  - unfold N_range in *. replace (N.to_nat (N.of_nat (S k) - 0)) with (S k) by lia.
    replace (N.to_nat (N.of_nat k - 0)) with k in IH by lia.
    cbn [seq map pack_value]. rewrite <- seq_shift, map_map, map_map.
    replace ((0 + N.of_nat 0) * e) with 0 by lia. rewrite N.pow_0_r, N.div_1_r.
    rewrite Nat2N.inj_succ. replace (N.succ (N.of_nat k) * e) with (e + N.of_nat k * e) by lia. rewrite N.pow_add_r.
    rewrite N.mod_mul_r by (try exact P; apply N.pow_nonzero; lia). f_equal. f_equal. rewrite <- IH, map_map. f_equal.
    apply map_ext. intros i. rewrite Nat2N.inj_succ.
    replace ((0 + N.succ (N.of_nat i)) * e) with (e + (0 + N.of_nat i) * e) by lia.
    rewrite N.pow_add_r, <- N.div_div by (try exact P; apply N.pow_nonzero; lia). reflexivity.
Qed.
Lemma unpack_pack e nonces : 1 <= e <= 63 -> length nonces = 42%nat -> Forall (fun x => x < 2 ^ e) nonces ->
  DeserializeProofNonces (SerializeCycle e nonces) e = Ret nonces.
Proof.
  intros He L F. unfold DeserializeProofNonces.
  destruct (N.eqb_spec e 0); [lia|]. destruct (N.ltb_spec 63 e); [lia|]. cbn [orb]. f_equal.
  destruct (cycle_ok e nonces ltac:(lia) L F) as (P1 & P2 & P3).
  etransitivity; [|apply (digits_of_pack e nonces F)].
  replace (nlen nonces) with PROOFSIZE by (unfold nlen; rewrite L; reflexivity).
  apply map_ext. intros k. rewrite unpack_ok by (auto; lia). rewrite P3. reflexivity.
Qed.
(** Re-packing what was unpacked gives the original bits when the padding is zero. *)
Lemma pack_unpack e bits nonces : is_bytes bits -> nlen bits = cycle_bytes_len e ->
  DeserializeProofNonces bits e = Ret nonces ->
  length nonces = 42%nat /\ Forall (fun x => x < 2 ^ e) nonces /\ 1 <= e <= 63 /\
  le_value (SerializeCycle e nonces) = le_value bits mod 2 ^ (42 * e) /\
  (le_value bits < 2 ^ (42 * e) -> SerializeCycle e nonces = bits).
Proof.
  intros B L D. unfold DeserializeProofNonces in D.
  destruct (N.eqb_spec e 0); [discriminate|]. destruct (N.ltb_spec 63 e); [discriminate|]. cbn [orb] in D.
  assert (D' : nonces = map (unpack_nonce bits e) (N_range 0 PROOFSIZE)) by congruence. subst nonces.
  assert (L42 : length (map (unpack_nonce bits e) (N_range 0 PROOFSIZE)) = 42%nat) by (rewrite map_length; reflexivity).
  assert (F : Forall (fun x => x < 2 ^ e) (map (unpack_nonce bits e) (N_range 0 PROOFSIZE))).
  { apply Forall_forall. intros x I. apply in_map_iff in I. destruct I as (k & <- & _).
    rewrite unpack_ok by (auto; lia). apply N.mod_lt. apply N.pow_nonzero. lia. }
  assert (E : pack_value e (map (unpack_nonce bits e) (N_range 0 PROOFSIZE)) = le_value bits mod 2 ^ (42 * e)).
  { change (42 * e) with (N.of_nat 42 * e). rewrite <- (pack_of_digits e (le_value bits) 42). f_equal. apply map_ext. intros k. apply unpack_ok; [exact B | lia]. }
  destruct (cycle_ok e _ ltac:(lia) L42 F) as (P1 & P2 & P3).
  split; [exact L42|]. split; [exact F|]. split; [lia|]. split.
  - rewrite P3. exact E.
  - intros H'. transitivity (le_bytes (length bits) (le_value bits)); [|apply le_bytes_le_value; exact B].
    etransitivity; [symmetry; apply le_bytes_le_value; exact P1|]. rewrite P3, E, N.mod_small by exact H'.
    f_equal. unfold nlen in *. lia.
Qed.

(** * Round trips *)
Ltac dec1 := first [ eapply dec_bind; [first [apply dec_be; eassumption | apply dec_vector; eassumption | apply dec_be; reflexivity]|] ].

Lemma dec_fee v f : fee_ok f -> decodes v Fee_Deserialize (Fee_Serialize f) f.
Proof.
  intros [Hs Hf]. change (2 ^ 40) with 1099511627776 in Hf.
  assert (E1 : N.shiftr (m_fee f) 32 = m_fee f / 4294967296) by (rewrite N.shiftr_div_pow2; reflexivity).
  assert (E2 : N.land (m_fee f) 4294967295 = m_fee f mod 4294967296).
  { change 4294967295 with (N.ones 32). rewrite N.land_ones. reflexivity. }
  unfold Fee_Deserialize, Fee_Serialize. rewrite E1, E2.
  apply dec_bind with 0; [apply dec_be; reflexivity|].
  apply dec_bind with (m_shift f); [apply dec_be; change (256 ^ N.of_nat 1) with 256; lia|].
  apply dec_bind with ((m_fee f / 4294967296) mod W8); [apply dec_be; change (256 ^ N.of_nat 1) with 256; lia|].
  apply dec_last with (m_fee f mod 4294967296); [apply dec_be; change (256 ^ N.of_nat 4) with 4294967296; lia|].
  destruct f as [s f]. cbn [m_shift m_fee] in *. f_equal.
  - change 15 with (N.ones 4). rewrite N.land_ones. apply N.mod_small. exact Hs.
  - rewrite N.shiftl_mul_pow2. change (2 ^ 32) with 4294967296.
    assert (Q : f / 4294967296 < 256) by lia.
    rewrite (N.mod_small (f / 4294967296) W8) by exact Q.
    assert (R : f / 4294967296 * 4294967296 < W64) by (clear -Q; lia).
    rewrite (N.mod_small _ W64) by exact R.
    assert (D : f = f / 4294967296 * 4294967296 + f mod 4294967296) by (clear; lia).
    rewrite add64_small; [symmetry; exact D | rewrite <- D; clear -Hf; lia].
Qed.

Lemma dec_kernel v k : kernel_ok v k -> decodes v Kernel_Deserialize (Kernel_Serialize v k) k.
Proof.
  intros (HC & HS & HF & HL & Hf & H3 & H0 & H1). destruct k as [f fee lh c s].
  cbn [k_features k_fee k_lockHeight k_excessCommitment k_excessSignature] in *.
  unfold Kernel_Deserialize, Kernel_Serialize, DEFAULT_KERNEL, COINBASE_KERNEL, HEIGHT_LOCKED, NO_RECENT_DUPLICATE, AppendBigInteger.
  cbn [k_features k_fee k_lockHeight k_excessCommitment k_excessSignature].
  assert (FIN : forall fl, snd fl = lh -> fst fl = fee -> decodes v (
     let! commitment := ReadBigInteger 33 in let! signature := ReadBigInteger 64 in
     (if (f =? 3) && ((snd fl =? 0) || (WEEK_HEIGHT <? snd fl)) then rthrow else rret (mkKernel f (fst fl) (snd fl) commitment signature)))
     (c ++ s) (mkKernel f fee lh c s)).
  { intros fl E1 E2. apply dec_bind with c; [apply dec_vector; lia|].
    apply dec_bind_end with s; [apply dec_vector; lia|].
    rewrite E1, E2. destruct (N.eqb_spec f 3) as [->|]; cbn [andb].
    - specialize (H3 eq_refl). unfold WEEK_HEIGHT. destruct (N.eqb_spec lh 0); [lia|]. destruct (N.ltb_spec 10080 lh); [lia|]. apply dec_ret.
    - apply dec_ret. }
  assert (B1 : f < 256 ^ N.of_nat 1) by (change (256 ^ N.of_nat 1) with 256; lia).
  assert (D3 : NO_RECENT_DUPLICATE = 3) by reflexivity.
  destruct (N.leb_spec 2 v) as [Hv|Hv].
  - rewrite <- ?app_assoc. apply dec_bind with f; [apply dec_be; exact B1|].
    apply dec_bind_nil with v; [apply dec_pv|].
    assert (CV : (2 <=? v) = true) by (apply N.leb_le; exact Hv). rewrite CV.
    apply dec_bind with (fee, lh); [|apply FIN; reflexivity].
    destruct (N.eqb_spec f 0) as [->|N0].
    { rewrite (H0 Hv eq_refl). cbn [N.eqb negb]. rewrite <- (app_nil_r (Fee_Serialize fee)).
      apply dec_bind with fee; [apply dec_fee; exact HF|]. apply dec_last with 0; [apply dec_ret | reflexivity]. }
    destruct (N.eqb_spec f 1) as [->|N1].
    { destruct (H1 Hv eq_refl) as [-> ->]. cbn [N.eqb Pos.eqb negb]. change (@nil N) with (@nil N ++ []).
      apply dec_bind with (mkFee 0 0); [apply dec_ret|]. apply dec_last with 0; [apply dec_ret | reflexivity]. }
    cbn [negb]. destruct (N.eqb_spec f 2) as [->|N2].
    { apply dec_bind with fee; [apply dec_fee; exact HF|]. apply dec_last with lh; [apply dec_be; exact HL | reflexivity]. }
    destruct (N.eqb_spec f 3) as [->|N3]; [|lia].
    { apply dec_bind with fee; [apply dec_fee; exact HF|]. specialize (H3 eq_refl).
      apply dec_last with lh; [|reflexivity]. rewrite (N.mod_small lh W16) by (clear -H3; lia).
      apply dec_be. change (256 ^ N.of_nat 2) with 65536. clear -H3; lia. }
  - apply dec_bind with f; [apply dec_be; exact B1|].
    rewrite !app_assoc. rewrite <- (app_assoc (Fee_Serialize fee ++ Append 8 lh)).
    apply dec_bind_nil with v; [apply dec_pv|].
    assert (CV : (2 <=? v) = false) by (apply N.leb_gt; exact Hv). rewrite CV.
    apply dec_bind with (fee, lh); [|apply FIN; reflexivity].
    apply dec_bind with fee; [apply dec_fee; exact HF|]. apply dec_last with lh; [apply dec_be; exact HL | reflexivity].
Qed.

Lemma dec_rangeproof v p : (length p <= 675)%nat -> decodes v RangeProof_Deserialize (RangeProof_Serialize p) p.
Proof.
  intros H. unfold RangeProof_Deserialize, RangeProof_Serialize, AppendByteVector, AppendLength, nlen, MAX_PROOF_SIZE. cbn [app].
  apply dec_bind with (N.of_nat (length p)); [apply dec_be; change (256 ^ N.of_nat 8) with W64; lia|].
  destruct (N.ltb_spec 675 (N.of_nat (length p))); [lia|]. apply dec_vector. reflexivity.
Qed.
Lemma dec_output v o : output_ok o -> decodes v Output_Deserialize (Output_Serialize o) o.
Proof.
  intros (H1 & H2 & H3). destruct o as [f c p]. cbn [o_features o_commitment o_rangeProof] in *.
  unfold Output_Deserialize, Output_Serialize, AppendBigInteger. cbn [o_features o_commitment o_rangeProof].
  apply dec_bind with f; [apply dec_be; exact H1|]. apply dec_bind with c; [apply dec_vector; lia|].
  apply dec_last with p; [apply dec_rangeproof; exact H3 | reflexivity].
Qed.
Lemma dec_output_id v f c : f < 256 -> length c = 33%nat ->
  decodes v OutputIdentifier_Deserialize (OutputIdentifier_Serialize (mkOutputId f c)) (mkOutputId f c).
Proof.
  intros H1 H2. unfold OutputIdentifier_Deserialize, OutputIdentifier_Serialize, AppendBigInteger. cbn [oi_features oi_commitment].
  apply dec_bind with f; [apply dec_be; exact H1|]. apply dec_last with c; [apply dec_vector; lia | reflexivity].
Qed.
Lemma dec_input cf v i : input_ok cf v i -> decodes v (Input_Deserialize cf) (Input_Serialize v i) i.
Proof.
  intros (H1 & H2 & H3). destruct i as [f c]. cbn [i_features i_commitment] in *.
  unfold Input_Deserialize, Input_Serialize, AppendBigInteger. cbn [i_features i_commitment].
  apply dec_bind_nil with v; [apply dec_pv|].
  destruct (N.leb_spec 3 v) as [Hv|Hv].
  - destruct (N.ltb_spec v 3); [lia|]. cbn [app]. apply dec_last with c; [apply dec_vector; lia|]. f_equal. symmetry. auto.
  - destruct (N.ltb_spec v 3); [|lia]. apply dec_bind with f; [apply dec_be; exact H1|].
    apply dec_last with c; [apply dec_vector; lia | reflexivity].
Qed.

Lemma insert_sorted {A} (key : A -> bytes) x l : sorted_by key (x :: l) -> insert_by key x l = x :: l.
Proof.
  intros S. destruct l as [|y l]; [reflexivity|]. inversion S as [|? ? ? H]; subst. inversion H as [|? ? Hlt]; subst.
  cbn [insert_by]. rewrite Hlt. reflexivity.
Qed.
Lemma sort_sorted {A} (key : A -> bytes) l : sorted_by key l -> sort_by key l = l.
Proof.
  induction l as [|x l IH]; intros S; [reflexivity|]. cbn [sort_by fold_right].
  change (fold_right (insert_by key) [] l) with (sort_by key l). rewrite IH by (inversion S; assumption).
  apply insert_sorted. exact S.
Qed.

Section WithHash.
Variable Blake2b : bytes -> bytes.

Lemma dec_pow v p : pow_fields_ok p -> pow_hash p = Blake2b (SerializeCycle (m_edgeBits p) (m_proofNonces p)) ->
  decodes v (PoW_Deserialize Blake2b) (PoW_Serialize p) p.
Proof.
  intros (He & L & F) Hh. destruct p as [e ns h]. cbn [m_edgeBits m_proofNonces pow_hash] in *.
  unfold PoW_Deserialize, PoW_Serialize. cbn [m_edgeBits m_proofNonces].
  destruct (cycle_ok e ns ltac:(lia) L F) as (P1 & P2 & P3).
  apply dec_bind with e; [apply dec_be; change (256 ^ N.of_nat 1) with 256; lia|].
  apply dec_bind_end with (SerializeCycle e ns); [apply dec_vector; exact P2|].
  rewrite unpack_pack by assumption. rewrite Hh. apply dec_ret.
Qed.

Definition header_ok (h : BlockHeader) : Prop := header_fields_ok h /\
  BlockHeader_GetHash h = Blake2b (SerializeCycle (m_edgeBits (h_proofOfWork h)) (m_proofNonces (h_proofOfWork h))).

Lemma dec_header v h : header_ok h -> decodes v (BlockHeader_Deserialize Blake2b) (BlockHeader_Serialize h) h.
Proof.
  intros [(H1 & H2 & H3 & H4 & H5 & H6 & H7 & H8 & H9 & H10 & H11 & H12 & H13 & H14 & HP) HH].
  unfold BlockHeader_GetHash in HH.
  destruct h as [a1 a2 a3 a4 a5 a6 a7 a8 a9 a10 a11 a12 a13 a14 p].
  cbn [h_version h_height h_timestamp h_previousBlockHash h_previousRoot h_outputRoot h_rangeProofRoot h_kernelRoot h_totalKernelOffset
       h_outputMMRSize h_kernelMMRSize h_totalDifficulty h_scalingDifficulty h_nonce h_proofOfWork] in *.
  unfold BlockHeader_Deserialize, BlockHeader_Serialize, AppendBigInteger.
  cbn [h_version h_height h_timestamp h_previousBlockHash h_previousRoot h_outputRoot h_rangeProofRoot h_kernelRoot h_totalKernelOffset
       h_outputMMRSize h_kernelMMRSize h_totalDifficulty h_scalingDifficulty h_nonce h_proofOfWork].
  apply dec_bind with a1; [apply dec_be; exact H1|].
  apply dec_bind with a2; [apply dec_be; exact H2|].
  apply dec_bind with a3; [apply dec_signed; [lia | exact H3]|].
  apply dec_bind with a4; [apply dec_vector; rewrite H4; reflexivity|].
  apply dec_bind with a5; [apply dec_vector; rewrite H5; reflexivity|].
  apply dec_bind with a6; [apply dec_vector; rewrite H6; reflexivity|].
  apply dec_bind with a7; [apply dec_vector; rewrite H7; reflexivity|].
  apply dec_bind with a8; [apply dec_vector; rewrite H8; reflexivity|].
  apply dec_bind with a9; [apply dec_vector; rewrite H9; reflexivity|].
  apply dec_bind with a10; [apply dec_be; exact H10|].
  apply dec_bind with a11; [apply dec_be; exact H11|].
  apply dec_bind with a12; [apply dec_be; exact H12|].
  apply dec_bind with a13; [apply dec_be; exact H13|].
  apply dec_bind with a14; [apply dec_be; exact H14|].
  apply dec_last with p; [apply dec_pow; assumption | reflexivity].
Qed.

Lemma dec_counted {A} v (r : reader A) (enc : A -> bytes) l : Forall (fun a => decodes v r (enc a) a) l ->
  decodes v (read_many r (N.to_nat (nlen l))) (flat_map enc l) l.
Proof. intros H. unfold nlen. rewrite Nat2N.id. apply dec_many. exact H. Qed.

Lemma flat_map_long {A} (enc : A -> bytes) l : (forall a, In a l -> (1 <= length (enc a))%nat) -> (length l <= length (flat_map enc l))%nat.
Proof.
  induction l as [|a l IH]; intros H; cbn [flat_map length]; [lia|]. rewrite app_length.
  specialize (IH (fun x I => H x (or_intror I))). specialize (H a (or_introl eq_refl)). lia.
Qed.
Lemma dec_compact v c : header_ok (cb_header c) -> compact_ok v c ->
  decodes v (CompactBlock_Deserialize Blake2b) (CompactBlock_Serialize v c) c.
Proof.
  intros H (Hn & HO & HK & HS). apply dec_long. intros L.
  destruct c as [h n outs kers ids]. cbn [cb_header cb_nonce cb_outputs cb_kernels cb_shortIds] in *.
  unfold CompactBlock_Serialize in *. cbn [cb_header cb_nonce cb_outputs cb_kernels cb_shortIds] in *.
  assert (A : nlen outs < W64 /\ nlen kers < W64 /\ nlen ids < W64).
  { rewrite !app_length in L.
    assert (A2 : (length outs <= length (flat_map Output_Serialize outs))%nat).
    { apply flat_map_long. intros i Hi. unfold Output_Serialize. rewrite !app_length, Append_length. lia. }
    assert (A3 : (length kers <= length (flat_map (Kernel_Serialize v) kers))%nat).
    { apply flat_map_long. intros i Hi. unfold Kernel_Serialize. destruct (2 <=? v); rewrite !app_length, Append_length; lia. }
    assert (A4 : (length ids <= length (flat_map ShortId_Serialize ids))%nat).
    { apply flat_map_long. intros i Hi. rewrite Forall_forall in HS. unfold ShortId_Serialize, AppendBigInteger. rewrite (HS i Hi). lia. }
    unfold nlen. lia. }
  destruct A as (L1 & L2 & L3). unfold CompactBlock_Deserialize.
  apply dec_bind with h; [apply dec_header; exact H|].
  apply dec_bind with n; [apply dec_be; exact Hn|].
  apply dec_bind with (nlen outs); [apply dec_be; exact L1|].
  apply dec_bind with (nlen kers); [apply dec_be; exact L2|].
  apply dec_bind with (nlen ids); [apply dec_be; exact L3|].
  apply dec_bind with outs; [apply dec_counted; revert HO; apply Forall_impl; intros; apply dec_output; assumption|].
  apply dec_bind with kers; [apply dec_counted; revert HK; apply Forall_impl; intros; apply dec_kernel; assumption|].
  apply dec_last with ids; [|reflexivity]. apply dec_counted. revert HS. apply Forall_impl. intros a Ha.
  apply dec_vector. rewrite Ha. reflexivity.
Qed.
Variable cf : bytes -> N.
(** Any order on the wire: the decoded body is the sorted one. *)
Lemma dec_body_any v ins outs kers :
  Forall (input_ok cf v) ins -> Forall output_ok outs -> Forall (kernel_ok v) kers ->
  nlen ins < W64 -> nlen outs < W64 -> nlen kers < W64 ->
  decodes v (Body_Deserialize Blake2b cf) (Body_Serialize v (mkBody ins outs kers))
    (mkBody (sort_by (input_hash Blake2b) (sort_by (input_hash Blake2b) ins))
            (sort_by (output_hash Blake2b) (sort_by (output_hash Blake2b) outs))
            (sort_by (kernel_hash Blake2b) (sort_by (kernel_hash Blake2b) kers))).
Proof.
  intros H1 H2 H3 L1 L2 L3. unfold Body_Deserialize, Body_Serialize. cbn [b_inputs b_outputs b_kernels].
  apply dec_bind with (nlen ins); [apply dec_be; exact L1|].
  apply dec_bind with (nlen outs); [apply dec_be; exact L2|].
  apply dec_bind with (nlen kers); [apply dec_be; exact L3|].
  apply dec_bind with ins; [apply dec_counted; revert H1; apply Forall_impl; intros; apply dec_input; assumption|].
  apply dec_bind with outs; [apply dec_counted; revert H2; apply Forall_impl; intros; apply dec_output; assumption|].
  apply dec_last with kers; [apply dec_counted; revert H3; apply Forall_impl; intros; apply dec_kernel; assumption|].
  reflexivity.
Qed.
Lemma body_counts v b : body_ok Blake2b cf v b -> N.of_nat (length (Body_Serialize v b)) < W64 ->
  nlen (b_inputs b) < W64 /\ nlen (b_outputs b) < W64 /\ nlen (b_kernels b) < W64.
Proof.
  intros (HI & HO & HK & _) L. unfold Body_Serialize in L. rewrite !app_length in L.
  assert (A1 : (length (b_inputs b) <= length (flat_map (Input_Serialize v) (b_inputs b)))%nat).
  { apply flat_map_long. intros i Hi. rewrite Forall_forall in HI. destruct (HI i Hi) as (_ & X & _).
    unfold Input_Serialize, AppendBigInteger. rewrite app_length. lia. }
  assert (A2 : (length (b_outputs b) <= length (flat_map Output_Serialize (b_outputs b)))%nat).
  { apply flat_map_long. intros i Hi. unfold Output_Serialize. rewrite !app_length, Append_length. lia. }
  assert (A3 : (length (b_kernels b) <= length (flat_map (Kernel_Serialize v) (b_kernels b)))%nat).
  { apply flat_map_long. intros i Hi. unfold Kernel_Serialize. destruct (2 <=? v); rewrite !app_length, Append_length; lia. }
  unfold nlen. lia.
Qed.
Lemma dec_body v b : body_ok Blake2b cf v b -> decodes v (Body_Deserialize Blake2b cf) (Body_Serialize v b) b.
Proof.
  intros OK. apply dec_long. intros L. destruct (body_counts v b OK L) as (L1 & L2 & L3).
  destruct OK as (HI & HO & HK & S1 & S2 & S3). destruct b as [ins outs kers]. cbn [b_inputs b_outputs b_kernels] in *.
  pose proof (dec_body_any v ins outs kers HI HO HK L1 L2 L3) as D.
  rewrite !(sort_sorted _ ins S1), !(sort_sorted _ outs S2), !(sort_sorted _ kers S3) in D. exact D.
Qed.
Lemma dec_tx v t : length (t_offset t) = 32%nat -> body_ok Blake2b cf v (t_body t) ->
  decodes v (Transaction_Deserialize Blake2b cf) (Transaction_Serialize v t) t.
Proof.
  intros H B. destruct t as [o b]. cbn [t_offset t_body] in *. unfold Transaction_Deserialize, Transaction_Serialize, AppendBigInteger.
  cbn [t_offset t_body]. apply dec_bind with o; [apply dec_vector; rewrite H; reflexivity|].
  apply dec_last with b; [apply dec_body; exact B | reflexivity].
Qed.
Lemma dec_block v t : header_ok (fb_header t) -> body_ok Blake2b cf v (fb_body t) ->
  decodes v (FullBlock_Deserialize Blake2b cf) (FullBlock_Serialize v t) t.
Proof.
  intros H B. destruct t as [o b]. cbn [fb_header fb_body] in *. unfold FullBlock_Deserialize, FullBlock_Serialize.
  cbn [fb_header fb_body]. apply dec_bind with o; [apply dec_header; exact H|].
  apply dec_last with b; [apply dec_body; exact B | reflexivity].
Qed.
End WithHash.

(** * Accepted headers *)
Definition header_prefix (h : BlockHeader) : bytes := GetPreProofOfWork h.
Lemma header_serialize_split h : BlockHeader_Serialize h = GetPreProofOfWork h ++ PoW_Serialize (h_proofOfWork h).
Proof. unfold BlockHeader_Serialize, GetPreProofOfWork. rewrite <- !app_assoc. reflexivity. Qed.
Definition accepted_pow (Blake2b : bytes -> bytes) (p : ProofOfWork) (c : bytes) : Prop :=
  exists bits, c = Append 1 (m_edgeBits p) ++ bits /\ is_bytes bits /\ nlen bits = cycle_bytes_len (m_edgeBits p) /\
    DeserializeProofNonces bits (m_edgeBits p) = Ret (m_proofNonces p) /\ pow_hash p = Blake2b bits.
Lemma cycle_len_small e : e < 256 -> cycle_bytes_len e <= 2 ^ 63.
Proof. intros H. unfold cycle_bytes_len, PROOFSIZE. rewrite p63. lia. Qed.
Lemma con_pow Blake2b : consumes (PoW_Deserialize Blake2b) (fun _ p c => accepted_pow Blake2b p c).
Proof.
  intros b p b' G B E. unfold PoW_Deserialize in E.
  assert (X : consumes (let! e := ReadU8 in if e <? 256 then let! bits := ReadVector (cycle_bytes_len e) in
    match DeserializeProofNonces bits e with Ret ns => rret (mkPoW e ns (Blake2b bits)) | _ => rthrow end else rthrow) (fun _ p c => accepted_pow Blake2b p c)).
  { eapply con_bind; [apply con_be; lia|]. intros e. destruct (N.ltb_spec e 256) as [He|He]; [|apply con_throw].
    eapply con_bind; [apply con_vector; apply cycle_len_small; exact He|]. intros bits.
    destruct (DeserializeProofNonces bits e) as [ns| |] eqn:D; try apply con_throw.
    apply con_ret. intros v c2 B2 [<- L] c1 B1 [-> _]. exists bits. cbn [m_edgeBits m_proofNonces pow_hash].
    rewrite app_nil_r. repeat split; auto. }
  apply (X b p b' G B). unfold rbind in *. destruct (ReadU8 b) as [[e b1]| |] eqn:R; try discriminate.
  cbn [obind fst snd] in *. destruct (be_inv 1 b e b1 G ltac:(lia) B R) as (A1 & A2 & A3 & A4 & A5 & A6).
  change (256 ^ N.of_nat 1) with 256 in A5.
  destruct (N.ltb_spec e 256); [exact E | lia].
Qed.
Lemma accepted_pow_ok Blake2b p c : accepted_pow Blake2b p c -> pow_fields_ok p.
Proof.
  intros (bits & -> & B & L & D & _). destruct (pack_unpack _ _ _ B L D) as (P1 & P2 & P3 & P4 & P5).
  split; [exact P3|]. split; assumption.
Qed.
Lemma con_header Blake2b : consumes (BlockHeader_Deserialize Blake2b)
  (fun _ h c => header_fields_ok h /\ exists pc, c = GetPreProofOfWork h ++ pc /\ accepted_pow Blake2b (h_proofOfWork h) pc).
Proof.
  unfold BlockHeader_Deserialize, ReadU16, ReadU32, ReadU64, Read64, ReadBigInteger.
  eapply con_bind; [apply con_be; lia|]. intros a1.
  eapply con_bind; [apply con_be; lia|]. intros a2.
  eapply con_bind; [apply con_signed; lia|]. intros a3.
  eapply con_bind; [apply con_vector; rewrite p63; lia|]. intros a4.
  eapply con_bind; [apply con_vector; rewrite p63; lia|]. intros a5.
  eapply con_bind; [apply con_vector; rewrite p63; lia|]. intros a6.
  eapply con_bind; [apply con_vector; rewrite p63; lia|]. intros a7.
  eapply con_bind; [apply con_vector; rewrite p63; lia|]. intros a8.
  eapply con_bind; [apply con_vector; rewrite p63; lia|]. intros a9.
  eapply con_bind; [apply con_be; lia|]. intros a10.
  eapply con_bind; [apply con_be; lia|]. intros a11.
  eapply con_bind; [apply con_be; lia|]. intros a12.
  eapply con_bind; [apply con_be; lia|]. intros a13.
  eapply con_bind; [apply con_be; lia|]. intros a14.
  eapply con_bind; [apply con_pow|]. intros p.
  apply con_ret.
  intros v cp _ HP c14 _ [-> H14] c13 _ [-> H13] c12 _ [-> H12] c11 _ [-> H11] c10 _ [-> H10]
    c9 _ [<- H9] c8 _ [<- H8] c7 _ [<- H7] c6 _ [<- H6] c5 _ [<- H5] c4 _ [<- H4] c3 _ [-> H3] c2 _ [-> H2] c1 _ [-> H1].
  unfold nlen in *. split.
  - unfold header_fields_ok. cbn [h_version h_height h_timestamp h_previousBlockHash h_previousRoot h_outputRoot h_rangeProofRoot h_kernelRoot h_totalKernelOffset
       h_outputMMRSize h_kernelMMRSize h_totalDifficulty h_scalingDifficulty h_nonce h_proofOfWork].
    pose proof (accepted_pow_ok _ _ _ HP). clear HP.
    split; [exact H1|]. split; [exact H2|]. split; [exact H3|].
    split; [clear -H4; lia|]. split; [clear -H5; lia|]. split; [clear -H6; lia|]. split; [clear -H7; lia|]. split; [clear -H8; lia|].
    split; [clear -H9; lia|]. split; [exact H10|]. split; [exact H11|]. split; [exact H12|]. split; [exact H13|]. split; [exact H14|]. assumption.
  - exists cp. split; [|exact HP]. unfold GetPreProofOfWork, AppendBigInteger.
    cbn [h_version h_height h_timestamp h_previousBlockHash h_previousRoot h_outputRoot h_rangeProofRoot h_kernelRoot h_totalKernelOffset
       h_outputMMRSize h_kernelMMRSize h_totalDifficulty h_scalingDifficulty h_nonce h_proofOfWork].
    rewrite app_nil_r, <- !app_assoc. reflexivity.
Qed.
(** The padding of the last byte. *)
Lemma last_bits bits e : is_bytes bits -> 1 <= e -> nlen bits = cycle_bytes_len e ->
  last bits 0 < 2 ^ (42 * e - 8 * (cycle_bytes_len e - 1)) -> le_value bits < 2 ^ (42 * e).
Proof.
  intros B He L H. destruct (exists_last (l := bits)) as (l' & x & ->).
  { intros ->. unfold nlen, cycle_bytes_len, PROOFSIZE in L. cbn in L. lia. }
  rewrite last_last in H. apply Forall_app in B. destruct B as [B1 B2].
  rewrite le_value_app. cbn [le_value]. pose proof (le_value_bound _ B1) as V.
  unfold nlen in L. rewrite app_length in L. cbn [length] in L.
  assert (L' : N.of_nat (length l') = cycle_bytes_len e - 1) by lia. rewrite L' in *.
  change 256 with (2 ^ 8) in *. rewrite <- N.pow_mul_r in *.
  set (m := 8 * (cycle_bytes_len e - 1)) in *.
  assert (M : m <= 42 * e) by (subst m; unfold cycle_bytes_len, PROOFSIZE; lia).
  replace (42 * e) with (m + (42 * e - m)) by lia. rewrite N.pow_add_r. rewrite N.mul_0_r, N.add_0_r.
  assert (x + 1 <= 2 ^ (42 * e - m)) by lia.
  apply N.lt_le_trans with (2 ^ m * (x + 1)); [lia|]. apply N.mul_le_mono_l. assumption.
Qed.
Lemma last_app_ne {A} (l l' : list A) d : l' <> [] -> last (l ++ l') d = last l' d.
Proof.
  intros H. destruct (exists_last H) as (m & x & ->). rewrite app_assoc, !last_last. reflexivity.
Qed.

(** * Safety of the composite readers *)
Ltac safe_step := first
  [ apply safe_ret | apply safe_throw | apply safe_pv
  | apply safe_be; lia | apply safe_le; lia | apply safe_signed; lia
  | apply safe_vector; rewrite p63; lia
  | apply safe_many
  | apply safe_bind; [|intro]
  | apply safe_if ].
Lemma safe_fee : safe Fee_Deserialize.
Proof. unfold Fee_Deserialize, ReadU16, ReadU8, ReadU32. repeat safe_step. Qed.
Lemma safe_kernel : safe Kernel_Deserialize.
Proof.
  unfold Kernel_Deserialize, ReadU8, ReadU64, ReadU16, ReadBigInteger. repeat first [apply safe_fee | safe_step].
Qed.
Lemma safe_rangeproof : safe RangeProof_Deserialize.
Proof.
  unfold RangeProof_Deserialize, ReadU64. apply safe_bind; [safe_step|]. intros n.
  unfold MAX_PROOF_SIZE. destruct (N.ltb_spec 675 n); [apply safe_throw|]. apply safe_vector. rewrite p63. lia.
Qed.
Lemma safe_output : safe Output_Deserialize.
Proof. unfold Output_Deserialize, ReadU8, ReadBigInteger. repeat first [apply safe_rangeproof | safe_step]. Qed.
Lemma safe_input cf : safe (Input_Deserialize cf).
Proof. unfold Input_Deserialize, ReadU8, ReadBigInteger. repeat safe_step. Qed.
Lemma u8_bound b a b' : ReadU8 b = Ret (a, b') -> good_buffer b -> is_bytes (m_bytes b) -> a < 256.
Proof. intros E G B. destruct (be_inv 1 b a b' G ltac:(lia) B E) as (A1 & A2 & A3 & A4 & A5 & A6). exact A5. Qed.
Lemma safe_pow H : safe (PoW_Deserialize H).
Proof.
  unfold PoW_Deserialize. apply safe_bind_post with (fun e => e < 256); [unfold ReadU8; safe_step | apply u8_bound |].
  intros e He. apply safe_bind; [apply safe_vector, cycle_len_small; exact He|]. intros bits.
  destruct (DeserializeProofNonces bits e); [apply safe_ret | apply safe_throw | apply safe_throw].
Qed.
Lemma safe_header H : safe (BlockHeader_Deserialize H).
Proof. unfold BlockHeader_Deserialize, ReadU16, ReadU64, ReadU32, Read64, ReadBigInteger. repeat first [apply safe_pow | safe_step]. Qed.
Lemma safe_body H cf : safe (Body_Deserialize H cf).
Proof. unfold Body_Deserialize, ReadU64. repeat first [apply safe_input | apply safe_output | apply safe_kernel | safe_step]. Qed.
Lemma safe_tx H cf : safe (Transaction_Deserialize H cf).
Proof. unfold Transaction_Deserialize, ReadBigInteger. repeat first [apply safe_body | safe_step]. Qed.
Lemma safe_block H cf : safe (FullBlock_Deserialize H cf).
Proof. unfold FullBlock_Deserialize. repeat first [apply safe_body | apply safe_header | safe_step]. Qed.
Lemma safe_compact H : safe (CompactBlock_Deserialize H).
Proof.
  unfold CompactBlock_Deserialize, ReadU64, ShortId_Deserialize.
  repeat first [apply safe_header | apply safe_output | apply safe_kernel | safe_step].
Qed.

(** * What accepted kernels look like *)
Lemma con_fee : consumes Fee_Deserialize (fun _ f c => fee_ok f /\ exists r s, r < 65536 /\ s < 256 /\ s mod 16 = m_shift f /\
   c = Append 2 r ++ Append 1 s ++ be_bytes 5 (m_fee f)).
Proof.
  unfold Fee_Deserialize, ReadU16, ReadU8, ReadU32.
  eapply con_bind; [apply con_be; lia|]. intros r. eapply con_bind; [apply con_be; lia|]. intros s.
  eapply con_bind; [apply con_be; lia|]. intros hi. eapply con_bind; [apply con_be; lia|]. intros lo.
  apply con_ret. intros v c4 _ [-> H4] c3 _ [-> H3] c2 _ [-> H2] c1 _ [-> H1].
  change (256 ^ N.of_nat 1) with 256 in *. change (256 ^ N.of_nat 2) with 65536 in *. change (256 ^ N.of_nat 4) with 4294967296 in *.
  change 15 with (N.ones 4). rewrite N.land_ones. change (2 ^ 4) with 16.
  rewrite N.shiftl_mul_pow2. change (2 ^ 32) with 4294967296.
  assert (A : hi * 4294967296 < W64) by (clear -H3; lia). rewrite (N.mod_small _ W64) by exact A.
  assert (A2 : hi * 4294967296 + lo < 1099511627776) by (clear -H3 H4; lia).
  rewrite add64_small by (clear -A2; lia). split.
  - split; cbn [m_shift m_fee]; [clear; lia | exact A2].
  - exists r, s. cbn [m_shift m_fee]. repeat split; auto. rewrite app_nil_r, !Append_eq. do 2 f_equal.
    symmetry. exact (be_bytes_split 1 4 hi lo H4).
Qed.
Lemma con_kernel_nrd : consumes Kernel_Deserialize (fun v k c => k_features k = 3 -> 1 <= k_lockHeight k <= 10080).
Proof.
  unfold Kernel_Deserialize, NO_RECENT_DUPLICATE.
  eapply con_bind; [apply con_be; lia|]. intros f. eapply con_bind; [apply (con_pv (fun _ _ _ => True)); intros; exact I|]. intros v.
  assert (ANY : forall r : reader (Fee * N), consumes r (fun _ _ _ => True) -> consumes (let! fl := r in
     let! commitment := ReadBigInteger 33 in let! signature := ReadBigInteger 64 in
     if (f =? 3) && ((snd fl =? 0) || (WEEK_HEIGHT <? snd fl)) then rthrow else rret (mkKernel f (fst fl) (snd fl) commitment signature))
     (fun v k c => k_features k = 3 -> 1 <= k_lockHeight k <= 10080)).
  { intros r Hr. eapply con_bind; [exact Hr|]. intros fl. eapply con_bind; [apply con_vector; rewrite p63; lia|]. intros c.
    eapply con_bind; [apply con_vector; rewrite p63; lia|]. intros s.
    destruct ((f =? 3) && ((snd fl =? 0) || (WEEK_HEIGHT <? snd fl))) eqn:C; [apply con_throw|].
    apply con_ret. intros _ _ _ _ _ _ _ _ _ _ H. cbn [k_features k_lockHeight] in *.
    rewrite H in C. cbn [N.eqb Pos.eqb andb] in C. apply orb_false_iff in C. destruct C as [C1 C2].
    apply N.eqb_neq in C1. apply N.ltb_ge in C2. unfold WEEK_HEIGHT in C2. lia. }
  eapply con_weaken; [apply ANY|].
  - assert (T : forall A (r : reader A) R, consumes r R -> consumes r (fun _ _ _ => True)).
    { intros A r R HR. eapply con_weaken; [exact HR|]. intros; exact I. }
    destruct (2 <=? v).
    + eapply con_bind.
      * destruct (negb (f =? COINBASE_KERNEL)); [eapply T, con_fee | apply con_ret; intros; exact I].
      * intros fee. eapply con_bind.
        -- destruct (f =? HEIGHT_LOCKED); [eapply T; apply con_be; lia|].
           destruct (f =? 3); [eapply T; apply con_be; lia | apply con_ret; intros; exact I].
        -- intros lh. apply con_ret. intros; exact I.
    + eapply con_bind; [eapply T, con_fee|]. intros fee. eapply con_bind; [eapply T; apply con_be; lia|].
      intros lh. apply con_ret. intros; exact I.
  - intros. auto.
Qed.

(** * Sorting *)
Lemma bytes_ltb_asym a : forall b, bytes_ltb a b = true -> bytes_ltb b a = false.
Proof.
  induction a as [|x a IH]; intros [|y b] H; cbn [bytes_ltb] in *; try reflexivity; try discriminate.
  rewrite (N.eqb_sym x y). destruct (N.eqb_spec y x); [apply IH; exact H|].
  apply N.ltb_lt in H. apply N.ltb_ge. lia.
Qed.
Lemma insert_sorts {A} (key : A -> bytes) x l : sorted_by key l -> sorted_by key (insert_by key x l).
Proof.
  unfold sorted_by. induction l as [|y l IH]; intros S; cbn [insert_by].
  - constructor; constructor.
  - destruct (bytes_ltb (key y) (key x)) eqn:C.
    + inversion S as [|? ? S' H]; subst. constructor; [apply IH; exact S'|].
      destruct l as [|z l]; cbn [insert_by].
      * constructor. apply bytes_ltb_asym. exact C.
      * destruct (bytes_ltb (key z) (key x)); constructor; [inversion H; assumption | apply bytes_ltb_asym; exact C].
    + constructor; [exact S|]. constructor. exact C.
Qed.
Lemma sort_sorts {A} (key : A -> bytes) l : sorted_by key (sort_by key l).
Proof. induction l; cbn [sort_by fold_right]; [constructor|]. apply insert_sorts. exact IHl. Qed.
Lemma insert_perm {A} (key : A -> bytes) x l : Permutation (x :: l) (insert_by key x l).
Proof.
  induction l as [|y l IH]; cbn [insert_by]; [apply Permutation_refl|].
  destruct (bytes_ltb (key y) (key x)); [|apply Permutation_refl].
  eapply perm_trans; [apply perm_swap|]. apply perm_skip. exact IH.
Qed.
Lemma sort_perm {A} (key : A -> bytes) l : Permutation l (sort_by key l).
Proof.
  induction l; cbn [sort_by fold_right]; [constructor|]. eapply perm_trans; [apply perm_skip; exact IHl|]. apply insert_perm.
Qed.

(** * Stored formats *)
Lemma dec_location v l h p H : nth_error (MMRIndexSpec.leaf_positions (MMRIndexSpec.big_tree H)) l = Some p -> p < W64 - 1 -> h < W64 ->
  decodes v OutputLocation_Deserialize (OutputLocation_Serialize (mkLoc (mkLeafIndex (N.of_nat l) p) h)) (mkLoc (mkLeafIndex (N.of_nat l) p) h).
Proof.
  intros E Hp Hh. unfold OutputLocation_Deserialize, OutputLocation_Serialize. cbn [loc_leaf loc_height lidx_position].
  apply dec_bind with p; [apply dec_be; change (256 ^ N.of_nat 8) with W64; lia|].
  apply dec_bind_end with h; [apply dec_be; exact Hh|].
  unfold LeafIndex_AtPos. rewrite (MMRIndexProofs.CalculateLeafIndex_correct _ _ _ E Hp). cbn [obind].
  intros pre suf _. cbn [length]. rewrite N.add_0_r. reflexivity.
Qed.
Lemma fee_json_value f : m_shift f < 16 -> m_fee f < 2 ^ 40 -> Fee_ToJSON f = Ret (m_shift f * 2 ^ 40 + m_fee f).
Proof.
  intros Hs Hf. change (2 ^ 40) with 1099511627776 in *.
  assert (E : Fee_Serialize f = Append 8 (m_shift f * 1099511627776 + m_fee f)).
  { unfold Fee_Serialize. rewrite !Append_eq. rewrite N.shiftr_div_pow2. change (2 ^ 32) with 4294967296.
    change 4294967295 with (N.ones 32). rewrite N.land_ones. change (2 ^ 32) with 4294967296.
    assert (Q : m_fee f / 4294967296 < 256) by (clear -Hf; lia). rewrite (N.mod_small _ W8) by exact Q.
    rewrite <- (be_bytes_split 1 4) by (change (256 ^ N.of_nat 4) with 4294967296; clear; lia).
    change (256 ^ N.of_nat 4) with 4294967296.
    rewrite <- (be_bytes_split 1 (4 + 1)) by (change (256 ^ N.of_nat (4 + 1)) with 1099511627776; clear -Hf Q; lia).
    rewrite <- (be_bytes_split 2 (4 + 1 + 1)) by (change (256 ^ N.of_nat (4 + 1)) with 1099511627776; change (256 ^ N.of_nat (4 + 1 + 1)) with 281474976710656; clear -Hf Hs Q; lia).
    change (4 + 1 + 1 + 2)%nat with 8%nat. f_equal. change (256 ^ N.of_nat (4 + 1)) with 1099511627776. clear. lia. }
  assert (B : m_shift f * 1099511627776 + m_fee f < 256 ^ N.of_nat 8) by (change (256 ^ N.of_nat 8) with W64; clear -Hs Hf; lia).
  pose proof (dec_be 1 8 _ B [] []) as D. cbn [app length] in D. rewrite app_nil_r in D. rewrite Append_length in D.
  unfold Fee_ToJSON, ReadU64. rewrite E. change (N.of_nat 0) with 0 in D. rewrite D by reflexivity. reflexivity.
Qed.
Lemma fee_json f : m_shift f = 0 -> m_fee f < 2 ^ 40 -> omap Fee_FromJSON (Fee_ToJSON f) = Ret f.
Proof.
  intros Hs Hf. rewrite fee_json_value by (auto; lia). cbn [omap]. unfold Fee_FromJSON. destruct f as [s x]. cbn [m_shift m_fee] in *. subst s.
  rewrite N.mul_0_l, N.add_0_l. reflexivity.
Qed.
Lemma fee_json_shift f : 0 < m_shift f < 16 -> m_fee f < 2 ^ 40 ->
  exists f', omap Fee_FromJSON (Fee_ToJSON f) = Ret f' /\ m_shift f' = 0 /\ 2 ^ 40 <= m_fee f'.
Proof.
  intros Hs Hf. rewrite fee_json_value by (auto; lia). cbn [omap]. eexists. split; [reflexivity|]. unfold Fee_FromJSON. cbn [m_shift m_fee].
  split; [reflexivity|]. change (2 ^ 40) with 1099511627776 in *. clear -Hs. lia.
Qed.
Lemma all_below b l : forallb (fun x => x <? b) l = true -> Forall (fun x => x < b) l.
Proof. intros H. apply Forall_forall. intros x I. rewrite forallb_forall in H. apply N.ltb_lt. apply H. exact I. Qed.
