(** Proofs for C52: the checksum detects any change of four characters. Coefficients are elements of the field with 32
    elements; multiplying them all by one element commutes with the step of the checksum, so that the first
    difference may be taken to be 1. *)
From Coq Require Import FMapPositive.
From Verif Require Import Base Bytes FileModel SerialModel TextModel Bech32Model Bech32Spec Bech32Poly Bech32Proofs Bech32Text Bech32Errors.
Local Open Scope N_scope.

(** Multiplication of the six coefficients by the generator of the field. *)
Definition over (c i : N) : N := cond (N.testbit c (5 * i + 4)) (N.shiftl 9 (5 * i)).
Definition scale (c : N) : N :=
  N.lxor (N.shiftl (N.land c 0x1ef7bdef) 1)
    (N.lxor (over c 0) (N.lxor (over c 1) (N.lxor (over c 2) (N.lxor (over c 3) (N.lxor (over c 4) (over c 5)))))).
Lemma over_xor a b i : over (N.lxor a b) i = N.lxor (over a i) (over b i).
Proof. unfold over. rewrite N.lxor_spec. apply cond_xorb. Qed.
Lemma swap4 a x b y : N.lxor (N.lxor a x) (N.lxor b y) = N.lxor (N.lxor a b) (N.lxor x y).
Proof. apply N.bits_inj; intros n. rewrite !N.lxor_spec. bool_cases. Qed.
Lemma scale_xor a b : scale (N.lxor a b) = N.lxor (scale a) (scale b).
Proof.
  unfold scale. rewrite !over_xor.
  replace (N.land (N.lxor a b) 0x1ef7bdef) with (N.lxor (N.land a 0x1ef7bdef) (N.land b 0x1ef7bdef)).
  2:{ apply N.bits_inj; intros n. rewrite ?N.lxor_spec, ?N.land_spec, ?N.lxor_spec. bool_cases. }
  rewrite N.shiftl_lxor. symmetry.
  rewrite (swap4 (N.shiftl (N.land a 0x1ef7bdef) 1)), (swap4 (over a 0)), (swap4 (over a 1)), (swap4 (over a 2)), (swap4 (over a 3)), (swap4 (over a 4)).
  reflexivity.
Qed.
Lemma additive_basis (f g : N -> N) k : (forall a b, f (N.lxor a b) = N.lxor (f a) (f b)) -> (forall a b, g (N.lxor a b) = N.lxor (g a) (g b)) ->
  (forall i, (i < k)%nat -> f (2 ^ N.of_nat i) = g (2 ^ N.of_nat i)) -> forall c, c < 2 ^ N.of_nat k -> f c = g c.
Proof.
  intros F G. induction k as [|k IH]; intros H c Hc.
  - change (2 ^ N.of_nat 0) with 1 in Hc. replace c with (N.lxor 0 0) by (cbn; lia). rewrite F, G, !N.lxor_nilpotent. reflexivity.
  - assert (IH' : forall c, c < 2 ^ N.of_nat k -> f c = g c) by (apply IH; intros i Hi; apply H; lia).
    destruct (N.lt_ge_cases c (2 ^ N.of_nat k)) as [L|L]; [apply IH'; exact L|].
    rewrite Nat2N.inj_succ, N.pow_succ_r in Hc by lia.
    set (d := c - 2 ^ N.of_nat k). assert (E : c = N.lxor (2 ^ N.of_nat k) d).
    { assert (Ld : d < 2 ^ N.of_nat k) by (unfold d; lia).
      assert (D : N.land (2 ^ N.of_nat k) d = 0).
      { apply N.bits_inj. intros n. rewrite N.land_spec, N.bits_0, N.pow2_bits_eqb. destruct (N.of_nat k =? n) eqn:Q; [|reflexivity].
        apply N.eqb_eq in Q. subst n. cbn [andb]. destruct (N.eq_dec d 0) as [->|Hz]; [apply N.bits_0|]. apply N.bits_above_log2. apply N.log2_lt_pow2; [lia|exact Ld]. }
      rewrite <- (N.add_nocarry_lxor _ _ D). unfold d. lia. }
    rewrite E, F, G, (H k) by lia. f_equal. apply IH'. unfold d. lia.
Qed.
Lemma scale_T c : c < 2 ^ 30 -> scale (T c) = T (scale c).
Proof.
  intros H. apply (additive_basis (fun c => scale (T c)) (fun c => T (scale c)) 30); [| | |exact H].
  - intros a b. rewrite T_xor, scale_xor. reflexivity.
  - intros a b. rewrite scale_xor, T_xor. reflexivity.
  - intros i Hi. do 30 (destruct i as [|i]; [vm_compute; reflexivity|]). lia.
Qed.
Lemma scale_Tn n : forall c, c < 2 ^ 30 -> scale (Tn n c) = Tn n (scale c).
Proof. induction n as [|n IH]; intros c H; [reflexivity|]. cbn [Tn]. rewrite IH by apply T_bound. rewrite scale_T by exact H. reflexivity. Qed.
Definition check_scale (v : N) : bool := (scale v <? 32) && (Bool.eqb (scale v =? 0) (v =? 0)).
Lemma scale_small v : v < 32 -> scale v < 32 /\ (0 < v -> 0 < scale v).
Proof.
  intros H. pose proof (below check_scale 32 eq_refl v H) as C. unfold check_scale in C. apply andb_true_iff in C. destruct C as [C1 C2].
  apply eqb_prop in C2. lia.
Qed.
Fixpoint scales (n : nat) (c : N) : N := match n with O => c | S k => scales k (scale c) end.
Definition check_power (v : N) : bool := (v =? 0) || existsb (fun n => scales n v =? 1) (seq 0 31).
Lemma to_one v : 0 < v < 32 -> exists n, scales n v = 1.
Proof.
  intros H. pose proof (below check_power 32 eq_refl v (proj2 H)) as C. unfold check_power in C. apply orb_true_iff in C. destruct C as [C|C]; [lia|].
  apply existsb_exists in C. destruct C as (n & _ & E). exists n. lia.
Qed.

(** ** The table *)
Fixpoint row_list (n : nat) (row : list N) : list (list N) :=
  match n with O => [] | S k => let r := map T row in map (fun x => x / 32) r :: row_list k r end.
Fixpoint put_all (l : list N) (m : PositiveMap.t unit) : PositiveMap.t unit :=
  match l with [] => m | x :: l' => put_all l' (PositiveMap.add (N.succ_pos x) tt m) end.
Definition absent (m : PositiveMap.t unit) (x : N) : bool := match PositiveMap.find (N.succ_pos x) m with Some _ => false | None => true end.
(** Each row after the first, its head (the difference 1) against all the rows before it. *)
Fixpoint check_rows (m : PositiveMap.t unit) (before : list (list N)) (rs : list (list N)) : bool :=
  match rs with
  | [] => true
  | r :: rs' => forallb (fun row => forallb (fun y => absent m (N.lxor (hd 0 r) y)) row) before && check_rows m (r :: before) rs'
  end.
Definition four_check (t : list (list N)) : bool := check_rows (put_all (concat t) (PositiveMap.empty unit)) [] t.
Lemma four_checked : four_check (row_list 87 ones_to_31) = true.
Proof. vm_compute. reflexivity. Qed.

Lemma put_keeps l : forall m k, PositiveMap.find k m <> None -> PositiveMap.find k (put_all l m) <> None.
Proof.
  induction l as [|x l IH]; intros m k H; [exact H|]. cbn [put_all]. apply IH. destruct (Pos.eq_dec k (N.succ_pos x)) as [->|Ne].
  - rewrite PositiveMap.gss. discriminate.
  - rewrite PositiveMap.gso by exact Ne. exact H.
Qed.
Lemma put_in l : forall m x, In x l -> absent (put_all l m) x = false.
Proof.
  induction l as [|y l IH]; intros m x Hi; [contradiction|]. cbn [put_all]. destruct Hi as [->|Hi]; [|apply IH; exact Hi].
  unfold absent. destruct (PositiveMap.find _ _) eqn:E; [reflexivity|]. exfalso. revert E. apply put_keeps. rewrite PositiveMap.gss. discriminate.
Qed.
Definition row_of (base : list N) (d : nat) : list N := map (fun a => Tn d a / 32) base.
Lemma row_list_eq n : forall d0 base, row_list n (map (Tn d0) base) = map (row_of base) (seq (S d0) n).
Proof.
  induction n as [|n IH]; intros d0 base; [reflexivity|]. cbn [row_list seq map]. cbv zeta. f_equal.
  - rewrite !map_map. apply map_ext. intros a. rewrite Tn_S. reflexivity.
  - rewrite <- (IH (S d0) base). f_equal. rewrite map_map. apply map_ext. intros a. rewrite Tn_S. reflexivity.
Qed.
Lemma check_rows_spec m R : forall n s before, check_rows m before (map R (seq s n)) = true ->
  forall d row y, (s <= d < s + n)%nat -> In row before \/ (exists d', (s <= d' < d)%nat /\ row = R d') -> In y row -> absent m (N.lxor (hd 0 (R d)) y) = true.
Proof.
  induction n as [|n IH]; intros s before C d row y Hd Hr Hy; [lia|]. cbn [seq map check_rows] in C. apply andb_true_iff in C. destruct C as [C1 C2].
  destruct (Nat.eq_dec d s) as [->|Ne].
  - destruct Hr as [Hr|(d' & Hd' & _)]; [|lia]. rewrite forallb_forall in C1. specialize (C1 row Hr). rewrite forallb_forall in C1. exact (C1 y Hy).
  - apply (IH (S s) (R s :: before) C2 d row y); [lia| |exact Hy]. destruct Hr as [Hr|(d' & Hd' & ->)]; [left; right; exact Hr|].
    destruct (Nat.eq_dec d' s) as [->|Ne']; [left; left; reflexivity|]. right. exists d'. split; [lia|reflexivity].
Qed.
Lemma in_ones a : 0 < a < 32 -> In a ones_to_31.
Proof. intros H. unfold ones_to_31. apply in_map_iff. exists (N.to_nat a). split; [lia|]. apply in_seq. lia. Qed.
Lemma four_generic base n d1 d2 d3 b c :
  four_check (map (row_of (1 :: base)) (seq 1 n)) = true ->
  (1 <= d3)%nat -> (d3 < d2 < d1)%nat -> (d1 <= n)%nat -> In b (1 :: base) -> In c (1 :: base) ->
  N.lxor (Tn d1 1 / 32) (Tn d2 b / 32) <> Tn d3 c / 32.
Proof.
  unfold four_check. set (R := row_of (1 :: base)). set (m := put_all _ _). intros C H3 H2 H1 Hb Hc E.
  assert (A : absent m (N.lxor (hd 0 (R d1)) (Tn d2 b / 32)) = true).
  { apply (check_rows_spec m R n 1 [] C d1 (R d2)); [lia|right; exists d2; split; [lia|reflexivity]|]. unfold R, row_of. apply in_map_iff. exists b. auto. }
  change (hd 0 (R d1)) with (Tn d1 1 / 32) in A. rewrite E in A.
  assert (P : absent m (Tn d3 c / 32) = false).
  { apply put_in. apply in_concat. exists (R d3). split; [apply in_map, in_seq; lia|]. unfold R, row_of. apply in_map_iff. exists c. auto. }
  congruence.
Qed.
Lemma four_rows : four_check (map (row_of ones_to_31) (seq 1 87)) = true.
Proof.
  assert (Q : row_list 87 ones_to_31 = map (row_of ones_to_31) (seq 1 87)).
  { rewrite <- (row_list_eq 87 0 ones_to_31). f_equal. }
  rewrite <- Q. exact four_checked.
Qed.
Lemma ones_cons : exists base, ones_to_31 = 1 :: base. Proof. eexists. reflexivity. Qed.
Lemma four_facts d1 d2 d3 b c : (1 <= d3)%nat -> (d3 < d2 < d1)%nat -> (d1 <= 87)%nat -> 0 < b < 32 -> 0 < c < 32 ->
  N.lxor (Tn d1 1 / 32) (Tn d2 b / 32) <> Tn d3 c / 32.
Proof.
  intros H3 H2 H1 Hb Hc. pose proof four_rows as C. apply in_ones in Hb, Hc. destruct ones_cons as [base Eb]. rewrite Eb in *.
  eapply four_generic; eauto.
Qed.
Lemma scaled n : forall d1 d2 d3 a b c d, 0 < a < 32 -> 0 < b < 32 -> 0 < c < 32 -> d < 32 ->
  N.lxor (N.lxor (Tn d1 a) (Tn d2 b)) (Tn d3 c) = d ->
  exists b' c' d', 0 < b' < 32 /\ 0 < c' < 32 /\ d' < 32 /\ N.lxor (N.lxor (Tn d1 (scales n a)) (Tn d2 b')) (Tn d3 c') = d'.
Proof.
  induction n as [|n IH]; intros d1 d2 d3 a b c d Ha Hb Hc Hd E; [exists b, c, d; auto|]. cbn [scales].
  apply (IH d1 d2 d3 (scale a) (scale b) (scale c) (scale d)).
  - destruct (scale_small a (proj2 Ha)). lia.
  - destruct (scale_small b (proj2 Hb)). lia.
  - destruct (scale_small c (proj2 Hc)). lia.
  - apply scale_small. exact Hd.
  - rewrite <- E, !scale_xor, !scale_Tn; [reflexivity|apply five30, Hc|apply five30, Hb|apply five30, Ha].
Qed.
Lemma no_four d1 d2 d3 a b c d : (1 <= d3)%nat -> (d3 < d2 < d1)%nat -> (d1 <= 87)%nat ->
  0 < a < 32 -> 0 < b < 32 -> 0 < c < 32 -> d < 32 -> N.lxor (N.lxor (Tn d1 a) (Tn d2 b)) (Tn d3 c) <> d.
Proof.
  intros H3 H2 H1 Ha Hb Hc Hd E. destruct (to_one a Ha) as [n Hn].
  destruct (scaled n _ _ _ _ _ _ _ Ha Hb Hc Hd E) as (b' & c' & d' & Hb' & Hc' & Hd' & E'). rewrite Hn in E'.
  apply (four_facts d1 d2 d3 b' c' H3 H2 H1 Hb' Hc').
  apply (f_equal (fun x => N.shiftr x 5)) in E'. rewrite !N.shiftr_lxor, !N.shiftr_div_pow2 in E'. change (2 ^ 5) with 32 in E'.
  rewrite (N.div_small d' 32) in E' by exact Hd'. apply N.lxor_eq in E'. exact E'.
Qed.
Lemma Tn_add m n : forall a, Tn n (Tn m a) = Tn (m + n) a.
Proof. induction m as [|m IH]; intros a; [reflexivity|]. cbn [Nat.add Tn]. apply IH. Qed.
Lemma detect_four e : (1 <= weight e <= 4)%nat -> Forall five e -> (length e <= 88)%nat -> PM 0 e <> 0.
Proof.
  intros W F L. destruct (Nat.eq_dec (weight e) 4) as [W4|]; [|apply detect; auto; lia]. intros Z.
  destruct (first_nonzero _ _ W4 F) as (k & a & r & -> & Ha & Wr & Fr & Le). rewrite PM_skip, Tn_0, N.lxor_0_l in Z.
  destruct (first_nonzero _ _ Wr Fr) as (k1 & b & r1 & -> & Hb & Wr1 & Fr1 & Le1). rewrite PM_skip in Z.
  destruct (first_nonzero _ _ Wr1 Fr1) as (k2 & c & r2 & -> & Hc & Wr2 & Fr2 & Le2). rewrite PM_skip in Z.
  destruct (first_nonzero _ _ Wr2 Fr2) as (k3 & d & r3 & -> & Hd & Wr3 & Fr3 & Le3). rewrite PM_skip in Z.
  rewrite PM_end in Z by exact Wr3. apply Tn_injective in Z.
  - apply N.lxor_eq in Z. rewrite !Tn_xor, !Tn_add in Z. revert Z. apply no_four; auto; lia.
  - apply lxor_bound; [|apply five30, Hd]. apply Tn_bound. apply lxor_bound; [|apply five30, Hc]. apply Tn_bound.
    apply lxor_bound; [apply Tn_bound, five30, Ha|apply five30, Hb].
Qed.
Lemma verify_errors hrp a b : Forall five a -> Forall five b -> length a = length b -> (length a <= 88)%nat ->
  (1 <= differences a b <= 4)%nat -> VerifyChecksum hrp a = true -> VerifyChecksum hrp b = false.
Proof.
  intros Fa Fb L Ll D. unfold VerifyChecksum, PolyMod. change (fold_left polymod_step ?l 1) with (PM 1 l). rewrite !PM_app.
  intros Va. apply N.eqb_eq in Va. apply N.eqb_neq. intros Vb. apply (detect_four (xors a b)).
  - rewrite xors_weight. exact D.
  - apply xors_five; assumption.
  - rewrite xors_length; assumption.
  - set (p := PM 1 (ExpandHRP hrp)) in *. pose proof (PM_xors a b p p L) as X. rewrite N.lxor_nilpotent, Va, Vb in X. exact X.
Qed.
Lemma enc_differences : forall a b, Forall five a -> Forall five b -> differences (map enc a) (map enc b) = differences a b.
Proof.
  induction a as [|x a IH]; intros [|y b] H H'; cbn [map differences]; try reflexivity. inversion H; inversion H'; subst. rewrite IH by assumption. f_equal.
  destruct (x =? y) eqn:E; [apply N.eqb_eq in E; subst; rewrite N.eqb_refl; reflexivity|].
  destruct (enc x =? enc y) eqn:F; [|reflexivity]. apply N.eqb_eq in F. apply enc_inj in F; [|assumption|assumption]. subst. rewrite N.eqb_refl in E. discriminate.
Qed.

(** Two texts with the same prefix and different data cannot both be read, if they differ in at most four characters. *)
Lemma decoded_errors p d d' h v h' v' : ~ In 49 d -> ~ In 49 d' -> length d = length d' ->
  (1 <= differences (lower d) (lower d') <= 4)%nat ->
  decoded (p ++ 49 :: d) h v -> decoded (p ++ 49 :: d') h' v' -> False.
Proof.
  intros N1 N2 L D A B.
  assert (U : forall d h v, ~ In 49 d -> decoded (p ++ 49 :: d) h v -> h = map LowerCase p /\ is_bytes h /\ Forall five v /\ (length d <= 88)%nat /\
     map LowerCase d = map enc (v ++ CreateChecksum h v)).
  { clear. intros d h v Hn [D1 _ D3 (p' & d' & E & Hd & Eh & Hh & Em) D5].
    assert (Q : nlen p = nlen p'). { pose proof (rfind_last 49 p d Hn) as R1. pose proof (rfind_last 49 p' d' Hd) as R2. rewrite E in R1. congruence. }
    unfold nlen in Q. destruct (app_inv_length p (49 :: d) p' (49 :: d') ltac:(lia) E) as [<- Ed]. injection Ed as <-.
    split; [exact Eh|]. split. { subst h. apply printable_bytes. unfold printable in *. apply Forall_app in D1. apply D1. }
    split; [exact D5|]. split; [|exact Em]. unfold nlen in D3. rewrite app_length in D3. cbn [length] in D3. destruct p; [subst h; contradiction Hh; reflexivity|]. cbn [length] in D3. lia. }
  destruct (U _ _ _ N1 A) as (A1 & A2 & A3 & A4 & A5). destruct (U _ _ _ N2 B) as (B1 & B2 & B3 & B4 & B5). assert (Ehh : h' = h) by congruence. rewrite Ehh in *. clear Ehh B1.
  rewrite !lower_map, A5, B5 in D. assert (Fa : Forall five (v ++ CreateChecksum h v)) by (apply Forall_app; split; [assumption|apply checksum_five]).
  assert (Fb : Forall five (v' ++ CreateChecksum h v')) by (apply Forall_app; split; [assumption|apply checksum_five]).
  rewrite enc_differences in D by assumption.
  assert (La : length (v ++ CreateChecksum h v) = length d) by (apply (f_equal (@length N)) in A5; rewrite !map_length in A5; lia).
  assert (Lb : length (v' ++ CreateChecksum h v') = length d') by (apply (f_equal (@length N)) in B5; rewrite !map_length in B5; lia).
  pose proof (verify_errors h _ _ Fa Fb ltac:(lia) ltac:(lia) D) as V.
  rewrite (proj2 (checksum_verifies h v' _ A2 B3 (checksum_five h v') (checksum_length h v')) eq_refl) in V.
  specialize (V (proj2 (checksum_verifies h v _ A2 A3 (checksum_five h v) (checksum_length h v)) eq_refl)). discriminate.
Qed.
