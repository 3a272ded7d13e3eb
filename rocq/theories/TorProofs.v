(** Proofs about onion addresses. *)
From Verif Require Import Base TorModel TorSpec Bech32Text.
Local Open Scope N_scope.

(** ** Bits as arithmetic *)
Lemma lor_disjoint a b k : b < 2 ^ k -> N.lor (a * 2 ^ k) b = a * 2 ^ k + b.
Proof.
  intros H. rewrite <- N.shiftl_mul_pow2. assert (D : N.land (N.shiftl a k) b = 0).
  { apply N.bits_inj_0. intros n. rewrite N.land_spec. destruct (N.ltb_spec n k) as [L|L].
    - rewrite N.shiftl_spec_low by exact L. reflexivity.
    - destruct (N.eq_dec b 0) as [->|Z]; [rewrite N.bits_0; apply andb_false_r|].
      rewrite (N.bits_above_log2 b n); [apply andb_false_r|]. apply N.log2_lt_pow2; [lia|]. apply N.lt_le_trans with (2 ^ k); [exact H|]. apply N.pow_le_mono_r; lia. }
  rewrite <- N.lxor_lor by exact D. rewrite <- N.add_nocarry_lxor by exact D. reflexivity.
Qed.

Lemma lor_d a b m k : m = 2 ^ k -> b < m -> N.lor (a * m) b = a * m + b.
Proof. intros ->. apply lor_disjoint. Qed.

Ltac by_below x k := 
  match goal with |- ?l = ?r => 
    let f := eval pattern x in (l =? r) in
    match f with ?p _ => apply N.eqb_eq; apply (below p k); [vm_compute; reflexivity | lia] end end.

Lemma e_hi3 b : b < 256 -> N.land (N.shiftr b 3) 0x1F = b / 8. Proof. intros H. by_below b 256%nat. Qed.
Lemma e_l2 b : b < 256 -> N.land (N.shiftl b 2) 0x1C = (b mod 8) * 4. Proof. intros H. by_below b 256%nat. Qed.
Lemma e_r6 b : b < 256 -> N.land (N.shiftr b 6) 0x3 = b / 64. Proof. intros H. by_below b 256%nat. Qed.
Lemma e_r1 b : b < 256 -> N.land (N.shiftr b 1) 0x1F = (b / 2) mod 32. Proof. intros H. by_below b 256%nat. Qed.
Lemma e_l4 b : b < 256 -> N.land (N.shiftl b 4) 0x10 = (b mod 2) * 16. Proof. intros H. by_below b 256%nat. Qed.
Lemma e_r4 b : b < 256 -> N.land (N.shiftr b 4) 0xF = b / 16. Proof. intros H. by_below b 256%nat. Qed.
Lemma e_l1 b : b < 256 -> N.land (N.shiftl b 1) 0x1E = (b mod 16) * 2. Proof. intros H. by_below b 256%nat. Qed.
Lemma e_r7 b : b < 256 -> N.land (N.shiftr b 7) 0x1 = b / 128. Proof. intros H. by_below b 256%nat. Qed.
Lemma e_r2 b : b < 256 -> N.land (N.shiftr b 2) 0x1F = (b / 4) mod 32. Proof. intros H. by_below b 256%nat. Qed.
Lemma e_l3 b : b < 256 -> N.land (N.shiftl b 3) 0x18 = (b mod 4) * 8. Proof. intros H. by_below b 256%nat. Qed.
Lemma e_r5 b : b < 256 -> N.land (N.shiftr b 5) 0x7 = b / 32. Proof. intros H. by_below b 256%nat. Qed.
Lemma e_lo b : b < 256 -> N.land b 0x1F = b mod 32. Proof. intros H. by_below b 256%nat. Qed.

Lemma d_l3 i : i < 32 -> N.land (N.shiftl i 3) 0xF8 = i * 8. Proof. intros H. by_below i 32%nat. Qed.
Lemma d_r2 i : i < 32 -> N.land (N.shiftr i 2) 0x7 = i / 4. Proof. intros H. by_below i 32%nat. Qed.
Lemma d_l6 i : i < 32 -> N.land (N.shiftl i 6) 0xC0 = (i mod 4) * 64. Proof. intros H. by_below i 32%nat. Qed.
Lemma d_l1 i : i < 32 -> N.land (N.shiftl i 1) 0x3E = i * 2. Proof. intros H. by_below i 32%nat. Qed.
Lemma d_r4 i : i < 32 -> N.land (N.shiftr i 4) 0x1 = i / 16. Proof. intros H. by_below i 32%nat. Qed.
Lemma d_l4 i : i < 32 -> N.land (N.shiftl i 4) 0xF0 = (i mod 16) * 16. Proof. intros H. by_below i 32%nat. Qed.
Lemma d_r1 i : i < 32 -> N.land (N.shiftr i 1) 0xF = i / 2. Proof. intros H. by_below i 32%nat. Qed.
Lemma d_l7 i : i < 32 -> N.land (N.shiftl i 7) 0x80 = (i mod 2) * 128. Proof. intros H. by_below i 32%nat. Qed.
Lemma d_l2 i : i < 32 -> N.land (N.shiftl i 2) 0x7C = i * 4. Proof. intros H. by_below i 32%nat. Qed.
Lemma d_r3 i : i < 32 -> N.land (N.shiftr i 3) 0x3 = i / 8. Proof. intros H. by_below i 32%nat. Qed.
Lemma d_l5 i : i < 32 -> N.land (N.shiftl i 5) 0xE0 = (i mod 8) * 32. Proof. intros H. by_below i 32%nat. Qed.
Lemma d_lo i : i < 32 -> N.land i 0x1F = i. Proof. intros H. by_below i 32%nat. Qed.

Ltac bounds := repeat match goal with
  | |- context [?a / ?b] => lazymatch goal with H : a = b * (a / b) + a mod b |- _ => fail | _ =>
      pose proof (N.div_mod a b ltac:(discriminate)); pose proof (N.mod_lt a b ltac:(discriminate)) end
  | |- context [?a mod ?b] => lazymatch goal with H : a = b * (a / b) + a mod b |- _ => fail | _ =>
      pose proof (N.div_mod a b ltac:(discriminate)); pose proof (N.mod_lt a b ltac:(discriminate)) end
  end;
  repeat match goal with
  | H : context [?a mod ?b] |- _ => is_var a; let q := fresh "q" in set (q := a mod b) in *; clearbody q
  | H : context [?a / ?b] |- _ => is_var a; let q := fresh "q" in set (q := a / b) in *; clearbody q
  end.

Lemma encode_block_spec b0 b1 b2 b3 b4 : b0 < 256 -> b1 < 256 -> b2 < 256 -> b3 < 256 -> b4 < 256 ->
  Forall (fun d => d < 32) (encode_block b0 b1 b2 b3 b4) /\ number 32 (encode_block b0 b1 b2 b3 b4) = number 256 [b0; b1; b2; b3; b4].
Proof.
  intros. unfold encode_block. rewrite e_hi3, e_l2, e_r6, e_r1, e_l4, e_r4, e_l1, e_r7, e_r2, e_l3, e_r5, e_lo by assumption.
  rewrite (lor_d (b0 mod 8) (b1 / 64) 4 2 eq_refl), (lor_d (b1 mod 2) (b2 / 16) 16 4 eq_refl), (lor_d (b2 mod 16) (b3 / 128) 2 1 eq_refl), (lor_d (b3 mod 4) (b4 / 32) 8 3 eq_refl)
    by (apply N.div_lt_upper_bound; lia).
  assert (X1 : b1 / 2 mod 32 = (b1 mod 64) / 2). { clear -H0. by_below b1 256%nat. }
  assert (X2 : b3 / 4 mod 32 = (b3 mod 128) / 4). { clear -H2. by_below b3 256%nat. }
  rewrite X1, X2.
  assert (Y1 : b1 mod 2 = (b1 mod 64) mod 2). { clear -H0. by_below b1 256%nat. }
  assert (Y2 : b3 mod 4 = (b3 mod 128) mod 4). { clear -H2. by_below b3 256%nat. }
  rewrite Y1, Y2. split.
  - bounds. repeat (apply Forall_cons; [lia|]). apply Forall_nil.
  - unfold number. cbn [fold_left]. bounds. lia.
Qed.

Lemma decode_block_spec i0 i1 i2 i3 i4 i5 i6 i7 : i0 < 32 -> i1 < 32 -> i2 < 32 -> i3 < 32 -> i4 < 32 -> i5 < 32 -> i6 < 32 -> i7 < 32 ->
  Forall is_byte (decode_block i0 i1 i2 i3 i4 i5 i6 i7) /\ number 256 (decode_block i0 i1 i2 i3 i4 i5 i6 i7) = number 32 [i0; i1; i2; i3; i4; i5; i6; i7].
Proof.
  intros. unfold decode_block. rewrite d_l3, d_r2, d_l6, d_l1, d_r4, d_l4, d_r1, d_l7, d_l2, d_r3, d_l5, d_lo by assumption.
  rewrite (lor_d i0 (i1 / 4) 8 3 eq_refl), (lor_d (i1 mod 4) (i2 * 2) 64 6 eq_refl), (lor_d (i3 mod 16) (i4 / 2) 16 4 eq_refl), (lor_d (i4 mod 2) (i5 * 4) 128 7 eq_refl),
    (lor_d (i6 mod 8) i7 32 5 eq_refl) by (first [apply N.div_lt_upper_bound; lia | lia]).
  replace ((i1 mod 4) * 64 + i2 * 2) with (((i1 mod 4) * 32 + i2) * 2) by lia.
  replace ((i4 mod 2) * 128 + i5 * 4) with (((i4 mod 2) * 32 + i5) * 4) by lia.
  rewrite (lor_d _ (i3 / 16) 2 1 eq_refl), (lor_d _ (i6 / 8) 4 2 eq_refl) by (apply N.div_lt_upper_bound; lia). unfold is_byte. split.
  - bounds. repeat (apply Forall_cons; [lia|]). apply Forall_nil.
  - unfold number. cbn [fold_left]. bounds. lia.
Qed.

(** ** Numbers *)
Lemma number_acc base l : forall a, fold_left (fun n d => n * base + d) l a = a * base ^ N.of_nat (length l) + number base l.
Proof.
  unfold number. induction l as [|d l IH]; intros a; cbn [fold_left length]; [cbn; lia|].
  rewrite IH, (IH (0 * base + d)). rewrite Nat2N.inj_succ, N.pow_succ_r'. lia.
Qed.
Lemma number_app base a b : number base (a ++ b) = number base a * base ^ N.of_nat (length b) + number base b.
Proof. unfold number at 1. rewrite fold_left_app, number_acc. reflexivity. Qed.
Lemma number_cons base x l : number base (x :: l) = x * base ^ N.of_nat (length l) + number base l.
Proof. change (x :: l) with ([x] ++ l). rewrite number_app. unfold number at 1. cbn. lia. Qed.
Lemma number_lt base l : Forall (fun d => d < base) l -> number base l < base ^ N.of_nat (length l).
Proof.
  induction 1 as [|d l D _ IH]; [unfold number; cbn; lia|]. rewrite number_cons. cbn [length]. rewrite Nat2N.inj_succ, N.pow_succ_r'. nia.
Qed.
Lemma number_inj base a : forall b, length a = length b -> Forall (fun d => d < base) a -> Forall (fun d => d < base) b -> number base a = number base b -> a = b.
Proof.
  induction a as [|x a IH]; intros [|y b] L FA FB E; try discriminate; [reflexivity|]. injection L as L.
  pose proof (number_lt base a (Forall_inv_tail FA)) as LA. pose proof (number_lt base b (Forall_inv_tail FB)) as LB. rewrite !number_cons, L in E. rewrite L in LA.
  assert (x = y) by nia. subst y. f_equal. apply IH; auto; [exact (Forall_inv_tail FA) | exact (Forall_inv_tail FB) | lia].
Qed.

Lemma encode_spec k : forall bytes, length bytes = (5 * k)%nat -> Forall is_byte bytes ->
  exists digits, encode bytes = map symbol digits /\ length digits = (8 * k)%nat /\ Forall (fun d => d < 32) digits /\ number 32 digits = number 256 bytes.
Proof.
  induction k as [|k IH]; intros bytes L F.
  - destruct bytes; [|cbn in L; lia]. exists []. cbn. auto.
  - destruct bytes as [|b0 [|b1 [|b2 [|b3 [|b4 r]]]]]; cbn [length] in L; try lia.
    pose proof (Forall_inv F) as B0. pose proof (Forall_inv (Forall_inv_tail F)) as B1. pose proof (Forall_inv (Forall_inv_tail (Forall_inv_tail F))) as B2.
    pose proof (Forall_inv (Forall_inv_tail (Forall_inv_tail (Forall_inv_tail F)))) as B3. pose proof (Forall_inv (Forall_inv_tail (Forall_inv_tail (Forall_inv_tail (Forall_inv_tail F))))) as B4.
    pose proof (Forall_inv_tail (Forall_inv_tail (Forall_inv_tail (Forall_inv_tail (Forall_inv_tail F))))) as FR.
    destruct (IH r ltac:(lia) FR) as (ds & E & LD & FD & N). destruct (encode_block_spec b0 b1 b2 b3 b4 B0 B1 B2 B3 B4) as [FB NB].
    exists (encode_block b0 b1 b2 b3 b4 ++ ds). split; [|split; [|split]].
    + change (encode (b0 :: b1 :: b2 :: b3 :: b4 :: r)) with (map symbol (encode_block b0 b1 b2 b3 b4) ++ encode r). rewrite E, map_app. reflexivity.
    + rewrite app_length, LD. unfold encode_block. cbn [length]. lia.
    + apply Forall_app. auto.
    + change (b0 :: b1 :: b2 :: b3 :: b4 :: r) with ([b0; b1; b2; b3; b4] ++ r). rewrite !number_app, NB, N, LD.
      replace (length r) with (5 * k)%nat by lia. f_equal. f_equal. change 32 with (2 ^ 5). change 256 with (2 ^ 8). rewrite <- !N.pow_mul_r. f_equal. lia.
Qed.
Lemma decode_spec k : forall l, length l = (8 * k)%nat -> Forall (fun d => d < 32) l ->
  length (decode_blocks l) = (5 * k)%nat /\ Forall is_byte (decode_blocks l) /\ number 256 (decode_blocks l) = number 32 l.
Proof.
  induction k as [|k IH]; intros l L F.
  - destruct l; [|cbn in L; lia]. cbn. auto.
  - destruct l as [|i0 [|i1 [|i2 [|i3 [|i4 [|i5 [|i6 [|i7 r]]]]]]]]; cbn [length] in L; try lia.
    change (decode_blocks (i0 :: i1 :: i2 :: i3 :: i4 :: i5 :: i6 :: i7 :: r)) with (decode_block i0 i1 i2 i3 i4 i5 i6 i7 ++ decode_blocks r).
    change (i0 :: i1 :: i2 :: i3 :: i4 :: i5 :: i6 :: i7 :: r) with ([i0; i1; i2; i3; i4; i5; i6; i7] ++ r) in F |- *. apply Forall_app in F. destruct F as [FB FR].
    destruct (IH r ltac:(lia) FR) as (LD & FD & N). rewrite Forall_forall in FB.
    destruct (decode_block_spec i0 i1 i2 i3 i4 i5 i6 i7) as [F8 N8]; try (apply FB; cbn; auto 10; fail). split; [|split].
    + rewrite app_length, LD. unfold decode_block. cbn [length]. lia.
    + apply Forall_app. auto.
    + rewrite !number_app, N8, N, LD. replace (length r) with (8 * k)%nat by lia. f_equal. f_equal. change 32 with (2 ^ 5). change 256 with (2 ^ 8). rewrite <- !N.pow_mul_r. f_equal. lia.
Qed.

(** ** Characters *)
Lemma index_exact c d : index_of (normalized_symbol c) = Some d <-> stands_for c d.
Proof.
  unfold index_of, normalized_symbol, stands_for.
  destruct ((97 <=? c) && (c <=? 122)) eqn:E1; repeat match goal with |- context [if ?b then _ else _] => destruct b eqn:? end;
    repeat match goal with H : _ && _ = true |- _ => apply andb_prop in H; destruct H | H : _ && _ = false |- _ => apply andb_false_iff in H end;
    repeat match goal with H : (_ <=? _) = true |- _ => apply N.leb_le in H | H : (_ <=? _) = false \/ (_ <=? _) = false |- _ => rewrite !N.leb_gt in H end;
    (split; [intros X; first [discriminate X | injection X as <-] | intros X]); try (f_equal); try lia; try (exfalso; lia).
Qed.
Lemma indexes_exact s : forall ds, indexes s = Some ds <-> Forall2 stands_for s ds.
Proof.
  induction s as [|c s IH]; intros ds; cbn [indexes].
  - split; [intros X; injection X as <-; constructor | intros X; inversion X; reflexivity].
  - split.
    + destruct (index_of (normalized_symbol c)) as [i|] eqn:E; [|discriminate]. destruct (indexes s) as [r|] eqn:R; [|discriminate]. intros X. injection X as <-.
      constructor; [apply index_exact; exact E | apply IH; reflexivity].
    + intros X. inversion X as [|? d ? r H1 H2]; subst. apply index_exact in H1. apply IH in H2. rewrite H1, H2. reflexivity.
Qed.
Lemma stands_lt c d : stands_for c d -> d < 32. Proof. unfold stands_for. lia. Qed.
Lemma digits_lt s ds : Forall2 stands_for s ds -> Forall (fun d => d < 32) ds.
Proof. induction 1; constructor; eauto using stands_lt. Qed.
Lemma lower_symbol d : d < 32 -> stands_for (lower (symbol d)) d /\ lower_case (lower (symbol d)) /\ stands_for (symbol d) d.
Proof.
  intros H. unfold lower, symbol, stands_for, lower_case. destruct (N.ltb_spec d 26).
  - replace ((65 <=? 65 + d) && (65 + d <=? 90)) with true by (symmetry; apply andb_true_intro; split; apply N.leb_le; lia). lia.
  - replace ((65 <=? 24 + d) && (24 + d <=? 90)) with false by (symmetry; apply andb_false_iff; left; apply N.leb_gt; lia). lia.
Qed.
Lemma lower_stands c d : stands_for c d -> lower c = lower (symbol d).
Proof.
  unfold stands_for, lower, symbol. intros H. destruct (N.ltb_spec d 26); repeat match goal with |- context [if ?b then _ else _] => destruct b eqn:? end;
    repeat match goal with H : _ && _ = true |- _ => apply andb_prop in H; destruct H | H : _ && _ = false |- _ => apply andb_false_iff in H end;
    repeat match goal with H : (_ <=? _) = true |- _ => apply N.leb_le in H | H : (_ <=? _) = false \/ (_ <=? _) = false |- _ => rewrite !N.leb_gt in H end; lia.
Qed.
Lemma spelled ds : Forall (fun d => d < 32) ds -> Forall2 stands_for (ToLower (map symbol ds)) ds /\ Forall lower_case (ToLower (map symbol ds)) /\ Forall2 stands_for (map symbol ds) ds.
Proof.
  induction 1 as [|d ds D _ (A & B & E)]; [repeat split; constructor|]. destruct (lower_symbol d D) as (X & Y & Z). cbn [map ToLower]. repeat split; constructor; auto.
Qed.
Lemma lower_digits s ds : Forall2 stands_for s ds -> ToLower s = ToLower (map symbol ds).
Proof. induction 1 as [|c d s ds H _ IH]; [reflexivity|]. cbn [map ToLower]. rewrite (lower_stands c d H). f_equal. exact IH. Qed.

Lemma text_eqb_eq a : forall b, text_eqb a b = true <-> a = b.
Proof.
  induction a as [|x a IH]; intros [|y b]; cbn [text_eqb]; split; intros H; try discriminate; auto.
  - apply andb_prop in H. destruct H as [A B]. apply N.eqb_eq in A. apply IH in B. congruence.
  - injection H as -> ->. rewrite N.eqb_refl. apply IH. reflexivity.
Qed.

Lemma split35 (l : list N) : length l = 35%nat -> l = firstn 32 l ++ firstn 2 (skipn 32 l) ++ [nth 34 l 0].
Proof. do 36 (destruct l as [|? l]; [try discriminate; try reflexivity|]). discriminate. Qed.
Lemma Forall2_length {A B} (R : A -> B -> Prop) l1 l2 : Forall2 R l1 l2 -> length l1 = length l2.
Proof. induction 1; cbn; congruence. Qed.
