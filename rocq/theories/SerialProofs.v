From Verif Require Import Base Bytes FileModel SerialModel SerialSpec.
Local Open Scope N_scope.

(** * Endianness *)
Lemma rev_le_bytes k : forall n, rev (le_bytes k n) = be_bytes k n.
Proof. induction k; intros n; cbn [le_bytes be_bytes rev]; [reflexivity|]. rewrite IHk. reflexivity. Qed.
Lemma le_value_app a b : le_value (a ++ b) = le_value a + 256 ^ N.of_nat (length a) * le_value b.
Proof.
  induction a; cbn [app le_value length]; [rewrite N.pow_0_r; lia|].
  rewrite IHa, Nat2N.inj_succ, N.pow_succ_r'. ring.
Qed.
Lemma le_value_rev l : le_value (rev l) = be_value l.
Proof.
  induction l using rev_ind; [reflexivity|]. rewrite rev_unit, be_value_app. cbn [le_value]. rewrite IHl. lia.
Qed.
Lemma Append_eq k n : Append k n = be_bytes k n.
Proof. apply rev_le_bytes. Qed.
Lemma Append_length k n : length (Append k n) = k.
Proof. rewrite Append_eq. apply be_bytes_length. Qed.
Lemma Append_bytes k n : is_bytes (Append k n).
Proof. rewrite Append_eq. apply be_bytes_are_bytes. Qed.

(** * Slices *)
Lemma skipn_plus {A} a b (l : list A) : skipn (a + b) l = skipn b (skipn a l).
Proof. revert l; induction a; intros l; [reflexivity|]. destruct l; cbn [Nat.add skipn]; [destruct b; reflexivity|apply IHa]. Qed.
Lemma slice_mid {A} (pre bs suf : list A) : slice (pre ++ bs ++ suf) (nlen pre) (nlen bs) = bs.
Proof.
  unfold slice, nlen. rewrite !Nat2N.id. rewrite skipn_app, skipn_all, Nat.sub_diag. cbn [app skipn].
  rewrite firstn_app, firstn_all, Nat.sub_diag. cbn [firstn]. apply app_nil_r.
Qed.

(** * decodes *)
Lemma dec_ret {A} v (a : A) : decodes v (rret a) [] a.
Proof. intros pre suf _. unfold rret. cbn [length]. rewrite N.add_0_r. reflexivity. Qed.
Lemma dec_bind {A B} v (r : reader A) (k : A -> reader B) bs1 bs2 a b :
  decodes v r bs1 a -> decodes v (k a) bs2 b -> decodes v (rbind r k) (bs1 ++ bs2) b.
Proof.
  intros H1 H2 pre suf Hl. unfold rbind.
  replace (pre ++ (bs1 ++ bs2) ++ suf) with (pre ++ bs1 ++ (bs2 ++ suf)) in * by (rewrite <- !app_assoc; reflexivity).
  rewrite H1 by assumption. cbn [obind fst snd].
  replace (pre ++ bs1 ++ bs2 ++ suf) with ((pre ++ bs1) ++ bs2 ++ suf) in * by (rewrite <- !app_assoc; reflexivity).
  replace (N.of_nat (length pre) + N.of_nat (length bs1)) with (N.of_nat (length (pre ++ bs1))) by (rewrite app_length; lia).
  rewrite H2 by assumption. f_equal. f_equal. f_equal. rewrite !app_length. lia.
Qed.
Lemma dec_bind_nil {A B} v (r : reader A) (k : A -> reader B) bs a b :
  decodes v r [] a -> decodes v (k a) bs b -> decodes v (rbind r k) bs b.
Proof. intros H1 H2. change bs with ([] ++ bs). apply dec_bind with a; assumption. Qed.
Lemma dec_bind_end {A B} v (r : reader A) (k : A -> reader B) bs a b :
  decodes v r bs a -> decodes v (k a) [] b -> decodes v (rbind r k) bs b.
Proof. intros H1 H2. rewrite <- (app_nil_r bs). apply dec_bind with a; assumption. Qed.
Lemma dec_last {A B} v (r : reader A) (f : A -> B) bs a b :
  decodes v r bs a -> f a = b -> decodes v (rbind r (fun x => rret (f x))) bs b.
Proof. intros H <-. rewrite <- (app_nil_r bs). apply dec_bind with a; [assumption|apply dec_ret]. Qed.
Lemma dec_vector v n bs : N.of_nat (length bs) = n -> decodes v (ReadVector n) bs bs.
Proof.
  intros <- pre suf Hl. unfold ReadVector. cbn [m_index m_bytes m_protocolVersion].
  assert (E : N.of_nat (length (pre ++ bs ++ suf)) = N.of_nat (length pre) + N.of_nat (length bs) + N.of_nat (length suf)) by (rewrite !app_length; lia).
  rewrite add64_small by lia. unfold nlen.
  destruct (N.ltb_spec (N.of_nat (length (pre ++ bs ++ suf))) (N.of_nat (length pre) + N.of_nat (length bs))); [lia|].
  destruct (N.leb_spec (N.of_nat (length pre) + N.of_nat (length bs)) (N.of_nat (length (pre ++ bs ++ suf)))); [|lia].
  pose proof (slice_mid pre bs suf) as S. unfold nlen in S. rewrite S. reflexivity.
Qed.
Lemma dec_be v k n : n < 256 ^ N.of_nat k -> decodes v (ReadBigEndian k) (Append k n) n.
Proof.
  intros H. unfold ReadBigEndian. apply dec_last with (Append k n).
  - apply dec_vector. rewrite Append_length. reflexivity.
  - rewrite le_value_rev, Append_eq. apply be_value_be_bytes. assumption.
Qed.
Lemma dec_le v k n : n < 256 ^ N.of_nat k -> decodes v (ReadLittleEndian k) (AppendLittleEndian k n) n.
Proof.
  intros H. unfold ReadLittleEndian. apply dec_last with (le_bytes k n).
  - apply dec_vector. rewrite le_bytes_length. reflexivity.
  - apply le_value_le_bytes. assumption.
Qed.
Lemma pow_256 k : (Z.of_N (256 ^ N.of_nat k) = 2 ^ (8 * Z.of_nat k))%Z.
Proof. rewrite N2Z.inj_pow. change (Z.of_N 256) with (2 ^ 8)%Z. rewrite <- Z.pow_mul_r by lia. f_equal. lia. Qed.
Lemma signed_rt k z : (1 <= k)%nat -> (- 2 ^ (8 * Z.of_nat k - 1) <= z < 2 ^ (8 * Z.of_nat k - 1))%Z ->
  to_signed k (of_signed k z) = z /\ of_signed k z < 256 ^ N.of_nat k.
Proof.
  intros Hk Hz. unfold to_signed, of_signed. rewrite pow_256.
  assert (E : (2 ^ (8 * Z.of_nat k) = 2 * 2 ^ (8 * Z.of_nat k - 1))%Z).
  { rewrite <- Z.pow_succ_r by lia. f_equal. lia. }
  rewrite E. set (w := (2 ^ (8 * Z.of_nat k - 1))%Z) in *.
  assert (Hw : (0 < w)%Z) by (apply Z.pow_pos_nonneg; lia).
  assert (Hd : (2 * w / 2 = w)%Z) by (rewrite Z.mul_comm; apply Z.div_mul; lia).
  rewrite Hd.
  assert (B : (0 <= z mod (2 * w) < 2 * w)%Z) by (apply Z.mod_pos_bound; lia).
  rewrite Z2N.id by lia. split.
  - destruct (Z.le_gt_cases 0 z) as [P|P].
    + rewrite (Z.mod_small z) by lia. destruct (Z.ltb_spec z w); lia.
    + assert (M : (z mod (2 * w) = z + 2 * w)%Z).
      { symmetry. apply Z.mod_unique with (-1)%Z; lia. }
      rewrite M. destruct (Z.ltb_spec (z + 2 * w) w); lia.
  - apply N2Z.inj_lt. rewrite Z2N.id by lia. rewrite pow_256, E. fold w. lia.
Qed.
Lemma dec_signed v k z : (1 <= k)%nat -> (- 2 ^ (8 * Z.of_nat k - 1) <= z < 2 ^ (8 * Z.of_nat k - 1))%Z ->
  decodes v (ReadSigned k) (AppendSigned k z) z.
Proof.
  intros Hk Hz. destruct (signed_rt k z Hk Hz) as [E B]. unfold ReadSigned, AppendSigned.
  apply dec_last with (of_signed k z); [apply dec_be; assumption|assumption].
Qed.
Lemma dec_varstr v s : N.of_nat (length s) < W64 -> decodes v ReadVarStr (AppendVarStr s) s.
Proof.
  intros H. unfold ReadVarStr, AppendVarStr, AppendLength. apply dec_bind with (nlen s).
  - apply dec_be. exact H.
  - destruct (N.eqb_spec (nlen s) 0) as [E|E].
    + destruct s; [apply dec_ret|discriminate].
    + apply dec_vector. reflexivity.
Qed.
Lemma dec_pv v : decodes v GetProtocolVersion [] v.
Proof. intros pre suf _. unfold GetProtocolVersion. cbn [m_protocolVersion length]. rewrite N.add_0_r. reflexivity. Qed.
Lemma dec_many {A} v (r : reader A) (enc : A -> bytes) l :
  Forall (fun a => decodes v r (enc a) a) l -> decodes v (read_many r (length l)) (flat_map enc l) l.
Proof.
  induction 1; cbn [length read_many flat_map]; [apply dec_ret|].
  apply dec_bind with x; [assumption|]. apply dec_last with l; [assumption|reflexivity].
Qed.
Lemma dec_long {A} v (r : reader A) bs a :
  (N.of_nat (length bs) < W64 -> decodes v r bs a) -> decodes v r bs a.
Proof. intros H pre suf Hl. apply H; [|assumption]. rewrite !app_length in Hl. lia. Qed.

(** * safe *)
Lemma safe_ret {A} (a : A) : safe (rret a).
Proof. intros b [H1 H2] _. cbn. repeat split; lia. Qed.
Lemma safe_throw {A} : safe (@rthrow A).
Proof. intros b H _. exact I. Qed.
Lemma safe_pv : safe GetProtocolVersion.
Proof. intros b [H1 H2] _. cbn. repeat split; lia. Qed.
Lemma safe_bind {A B} (r : reader A) (k : A -> reader B) : safe r -> (forall a, safe (k a)) -> safe (rbind r k).
Proof.
  intros Hr Hk b Hb HB. unfold rbind. specialize (Hr b Hb HB). destruct (r b) as [[a b1]| |]; cbn [obind fst snd]; auto.
  destruct Hr as (E & V & I1). assert (Hb1 : good_buffer b1).
  { destruct Hb as [G1 G2]. split; rewrite E; [apply I1|exact G2]. }
  assert (HB1 : is_bytes (m_bytes b1)) by (rewrite E; exact HB).
  specialize (Hk a b1 Hb1 HB1). destruct (k a b1) as [[a' b2]| |]; auto. rewrite E, V in Hk. repeat split; try apply Hk.
  destruct Hk as (_ & _ & I2). lia.
Qed.
Lemma safe_if {A} (c : bool) (r s : reader A) : safe r -> safe s -> safe (if c then r else s).
Proof. destruct c; auto. Qed.
Lemma p63 : 2 ^ 63 = 9223372036854775808. Proof. reflexivity. Qed.
Lemma safe_vector n : n <= 2 ^ 63 -> safe (ReadVector n).
Proof.
  intros Hn b [G1 G2] _. unfold ReadVector, nlen. rewrite p63 in *. set (L := N.of_nat (length (m_bytes b))) in *.
  rewrite add64_small by lia. destruct (N.ltb_spec L (m_index b + n)); [exact I|].
  destruct (N.leb_spec (m_index b + n) L); [|lia]. cbn [m_bytes m_protocolVersion m_index]. repeat split; lia.
Qed.
(** With bounds on the value it returns. *)
Lemma safe_bind_post {A B} (r : reader A) (P : A -> Prop) (k : A -> reader B) :
  safe r -> (forall b a b', r b = Ret (a, b') -> good_buffer b -> is_bytes (m_bytes b) -> P a) -> (forall a, P a -> safe (k a)) -> safe (rbind r k).
Proof.
  intros Hr HP Hk b Hb HB. unfold rbind. pose proof (Hr b Hb HB) as Hr'. destruct (r b) as [[a b1]| |] eqn:E; cbn [obind fst snd]; auto.
  destruct Hr' as (Eb & V & I1). assert (Hb1 : good_buffer b1).
  { destruct Hb as [G1 G2]. split; rewrite Eb; [apply I1|exact G2]. }
  assert (HB1 : is_bytes (m_bytes b1)) by (rewrite Eb; exact HB).
  specialize (Hk a (HP _ _ _ E Hb HB) b1 Hb1 HB1). destruct (k a b1) as [[a' b2]| |]; auto. rewrite Eb, V in Hk. repeat split; try apply Hk.
  destruct Hk as (_ & _ & I2). lia.
Qed.
Lemma small_nat k : (k <= 1000)%nat -> N.of_nat k <= 2 ^ 63.
Proof. rewrite p63. lia. Qed.
Lemma safe_be k : (k <= 1000)%nat -> safe (ReadBigEndian k).
Proof. intros H. apply safe_bind; [apply safe_vector, small_nat, H|intros; apply safe_ret]. Qed.
Lemma safe_le k : (k <= 1000)%nat -> safe (ReadLittleEndian k).
Proof. intros H. apply safe_bind; [apply safe_vector, small_nat, H|intros; apply safe_ret]. Qed.
Lemma safe_signed k : (k <= 1000)%nat -> safe (ReadSigned k).
Proof. intros H. apply safe_bind; [apply safe_be, H|intros; apply safe_ret]. Qed.
Lemma safe_many {A} (r : reader A) n : safe r -> safe (read_many r n).
Proof.
  intros H. induction n; cbn [read_many]; [apply safe_ret|].
  apply safe_bind; [assumption|]. intros x. apply safe_bind; [assumption|]. intros xs. apply safe_ret.
Qed.

(** * exact *)
Lemma vector_inv n b a b' : good_buffer b -> n <= 2 ^ 63 -> ReadVector n b = Ret (a, b') ->
  m_bytes b' = m_bytes b /\ m_protocolVersion b' = m_protocolVersion b /\ m_index b' = m_index b + n /\
  m_index b + n <= N.of_nat (length (m_bytes b)) /\
  N.of_nat (length a) = n /\ a = slice (m_bytes b) (m_index b) n /\
  skipn (N.to_nat (m_index b)) (m_bytes b) = a ++ skipn (N.to_nat (m_index b')) (m_bytes b).
Proof.
  intros [G1 G2] Hn. unfold ReadVector, nlen. rewrite p63 in *. set (L := N.of_nat (length (m_bytes b))) in *.
  rewrite add64_small by lia. destruct (N.ltb_spec L (m_index b + n)); [discriminate|].
  destruct (N.leb_spec (m_index b + n) L); [|discriminate]. intros E. inversion E; subst a b'. cbn [m_bytes m_protocolVersion m_index].
  repeat split; try lia.
  - unfold slice. rewrite firstn_length, skipn_length. unfold L in *. lia.
  - unfold slice. rewrite N2Nat.inj_add. rewrite skipn_plus. symmetry. apply firstn_skipn.
Qed.
Lemma slice_bytes l p n : is_bytes l -> is_bytes (slice l p n).
Proof.
  unfold is_bytes, slice. intros H. rewrite <- (firstn_skipn (N.to_nat p) l) in H. apply Forall_app in H. destruct H as [_ H].
  rewrite <- (firstn_skipn (N.to_nat n) (skipn (N.to_nat p) l)) in H. apply Forall_app in H. apply H.
Qed.
Lemma be_inv k b a b' : good_buffer b -> (k <= 1000)%nat -> is_bytes (m_bytes b) -> ReadBigEndian k b = Ret (a, b') ->
  m_bytes b' = m_bytes b /\ m_protocolVersion b' = m_protocolVersion b /\ m_index b' = m_index b + N.of_nat k /\
  m_index b + N.of_nat k <= N.of_nat (length (m_bytes b)) /\ a < 256 ^ N.of_nat k /\
  skipn (N.to_nat (m_index b)) (m_bytes b) = Append k a ++ skipn (N.to_nat (m_index b')) (m_bytes b).
Proof.
  intros G Hk Hb. unfold ReadBigEndian, rbind. destruct (ReadVector (N.of_nat k) b) as [[x b1]| |] eqn:E; try discriminate.
  cbn [obind fst snd]. unfold rret. intros R. inversion R; subst a b'. clear R.
  destruct (vector_inv _ _ _ _ G (small_nat _ Hk) E) as (E1 & E2 & E3 & E4 & E5 & E6 & E7).
  assert (B : is_bytes x) by (rewrite E6; apply slice_bytes; assumption).
  assert (Lx : length x = k) by lia.
  rewrite le_value_rev. repeat split; auto.
  - rewrite <- Lx. apply be_value_bound. assumption.
  - rewrite Append_eq. rewrite <- Lx at 1. rewrite be_bytes_be_value by assumption. exact E7.
Qed.

(** A reader that consumed exactly the encoding of the value, keeping the buffer. *)
Definition exactly {A} (r : reader A) (enc : N -> A -> bytes) : Prop :=
  forall b a b', good_buffer b -> is_bytes (m_bytes b) -> r b = Ret (a, b') ->
    m_bytes b' = m_bytes b /\ m_protocolVersion b' = m_protocolVersion b /\
    m_index b <= m_index b' <= N.of_nat (length (m_bytes b)) /\
    skipn (N.to_nat (m_index b)) (m_bytes b) = enc (m_protocolVersion b) a ++ skipn (N.to_nat (m_index b')) (m_bytes b).
Lemma exactly_exact {A} (r : reader A) enc : exactly r enc -> exact r enc.
Proof. intros H b a b' G B E. destruct (H b a b' G B E) as (_ & _ & _ & X). exact X. Qed.
Lemma ex_be k : (k <= 1000)%nat -> exactly (ReadBigEndian k) (fun _ a => Append k a).
Proof.
  intros Hk b a b' G B E. destruct (be_inv k b a b' G Hk B E) as (A1 & A2 & A3 & A4 & A5 & A6).
  repeat split; auto; lia.
Qed.
Lemma ex_vector n : n <= 2 ^ 63 -> exactly (ReadVector n) (fun _ a => a).
Proof.
  intros Hn b a b' G B E. destruct (vector_inv _ _ _ _ G Hn E) as (E1 & E2 & E3 & E4 & E5 & E6 & E7).
  repeat split; auto; lia.
Qed.
Lemma ex_ret {A} (a0 : A) : exactly (rret a0) (fun _ _ => []).
Proof. intros b a b' [G1 G2] B E. inversion E; subst. repeat split; auto; lia. Qed.

(** * Sequences of fields *)
Lemma write_field_format f : field_ok f -> N.of_nat (length (field_bytes f)) < W64 -> write_field f = field_bytes f.
Proof.
  destruct f; cbn [field_ok field_bytes write_field]; intros H L.
  - apply Append_eq.
  - unfold AppendSigned, of_signed. rewrite Append_eq, pow_256. reflexivity.
  - unfold AppendLittleEndian. rewrite <- (rev_le_bytes 8 n), rev_involutive. reflexivity.
  - unfold AppendVarStr, AppendLength. rewrite Append_eq. reflexivity.
  - reflexivity.
Qed.
Lemma field_round_trip v f : field_ok f -> decodes v (read_field (kind_of f)) (field_bytes f) f.
Proof.
  intros H. apply dec_long. intros L. rewrite <- (write_field_format f H L).
  destruct f; cbn [field_ok kind_of read_field write_field] in *.
  - apply (dec_last v _ (FUInt k) _ n); [apply dec_be; tauto | reflexivity].
  - apply (dec_last v _ (FInt k) _ z); [apply dec_signed; tauto | reflexivity].
  - apply (dec_last v _ FUInt64LE _ n); [apply dec_le; exact H | reflexivity].
  - apply (dec_last v _ FVarStr _ s); [apply dec_varstr | reflexivity].
    cbn [field_bytes] in L. rewrite app_length in L. lia.
  - apply (dec_last v _ FRaw _ s); [apply dec_vector; reflexivity | reflexivity].
Qed.
Lemma fields_round_trip v fs : Forall field_ok fs ->
  decodes v (read_fields (map kind_of fs)) (flat_map field_bytes fs) fs.
Proof.
  induction 1 as [|f fs Hf Hfs IH]; cbn [map read_fields flat_map].
  - apply dec_ret.
  - eapply dec_bind; [apply field_round_trip; exact Hf|]. eapply dec_last; [exact IH | reflexivity].
Qed.
Lemma fields_prefix_free fs gs s t : Forall field_ok fs -> Forall field_ok gs -> map kind_of fs = map kind_of gs ->
  N.of_nat (length (flat_map field_bytes fs ++ s)) < W64 ->
  flat_map field_bytes fs ++ s = flat_map field_bytes gs ++ t -> fs = gs /\ s = t.
Proof.
  intros F G K L E.
  pose proof (fields_round_trip 1 fs F [] s L) as R1.
  pose proof (fields_round_trip 1 gs G [] t) as R2. cbn [app length] in R2. rewrite <- E in R2. specialize (R2 L).
  cbn [app length] in R1. rewrite <- K, R1 in R2. injection R2 as -> _.
  split; [reflexivity|]. apply app_inv_head in E. exact E.
Qed.

(** * What an accepting read consumed *)
Definition consumes {A} (r : reader A) (R : N -> A -> bytes -> Prop) : Prop :=
  forall b a b', good_buffer b -> is_bytes (m_bytes b) -> r b = Ret (a, b') ->
    m_bytes b' = m_bytes b /\ m_protocolVersion b' = m_protocolVersion b /\
    m_index b <= m_index b' <= N.of_nat (length (m_bytes b)) /\
    exists c, N.of_nat (length c) = m_index b' - m_index b /\ is_bytes c /\
      skipn (N.to_nat (m_index b)) (m_bytes b) = c ++ skipn (N.to_nat (m_index b')) (m_bytes b) /\ R (m_protocolVersion b) a c.
Lemma con_bind {A B} (r : reader A) (k : A -> reader B) (R1 : N -> A -> bytes -> Prop) (R : N -> B -> bytes -> Prop) :
  consumes r R1 -> (forall a, consumes (k a) (fun v b c2 => forall c1, is_bytes c1 -> R1 v a c1 -> R v b (c1 ++ c2))) ->
  consumes (rbind r k) R.
Proof.
  intros H1 H2 b x b' G B0 E. unfold rbind in E. destruct (r b) as [[a b1]| |] eqn:E1; try discriminate. cbn [obind fst snd] in E.
  destruct (H1 b a b1 G B0 E1) as (F1 & F2 & F3 & c1 & C1 & C2 & C3 & C4).
  assert (G1 : good_buffer b1) by (destruct G as [G1 G2]; split; rewrite F1; [lia | exact G2]).
  assert (B1 : is_bytes (m_bytes b1)) by (rewrite F1; exact B0).
  destruct (H2 a b1 x b' G1 B1 E) as (K1 & K2 & K3 & c2 & D1 & D2 & D3 & D4).
  rewrite F1 in *. split; [exact K1|]. split; [congruence|]. split; [lia|].
  exists (c1 ++ c2). split; [rewrite app_length; lia|]. split; [apply Forall_app; split; assumption|].
  split; [rewrite C3, D3, app_assoc; reflexivity|]. rewrite F2 in D4. apply D4; [exact C2 | exact C4].
Qed.
Lemma con_ret {A} (a : A) (R : N -> A -> bytes -> Prop) : (forall v, R v a []) -> consumes (rret a) R.
Proof.
  intros H b x b' [G1 G2] B E. inversion E; subst. repeat split; auto; try lia.
  exists []. cbn [length]. repeat split; auto; try lia. constructor.
Qed.
Lemma con_pv (R : N -> N -> bytes -> Prop) : (forall v, R v v []) -> consumes GetProtocolVersion R.
Proof.
  intros H b x b' [G1 G2] B E. inversion E; subst. repeat split; auto; try lia.
  exists []. cbn [length]. repeat split; auto; try lia. constructor.
Qed.
Lemma con_throw {A} (R : N -> A -> bytes -> Prop) : consumes (@rthrow A) R.
Proof. intros b x b' G B E. discriminate. Qed.
Lemma con_weaken {A} (r : reader A) (R R' : N -> A -> bytes -> Prop) :
  consumes r R -> (forall v a c, is_bytes c -> R v a c -> R' v a c) -> consumes r R'.
Proof.
  intros H W b a b' G B E. destruct (H b a b' G B E) as (F1 & F2 & F3 & c & C1 & C2 & C3 & C4).
  repeat split; auto; try lia. exists c. repeat split; auto.
Qed.
Lemma con_vector n : n <= 2 ^ 63 -> consumes (ReadVector n) (fun _ a c => a = c /\ nlen a = n).
Proof.
  intros Hn b a b' G B E. destruct (vector_inv _ _ _ _ G Hn E) as (E1 & E2 & E3 & E4 & E5 & E6 & E7).
  split; [assumption|]. split; [assumption|]. split; [lia|]. exists a. unfold nlen in *.
  repeat split; auto; try lia. rewrite E6. apply slice_bytes. exact B.
Qed.
Lemma con_be k : (k <= 1000)%nat -> consumes (ReadBigEndian k) (fun _ a c => c = Append k a /\ a < 256 ^ N.of_nat k).
Proof.
  intros Hk b a b' G B E. destruct (be_inv k b a b' G Hk B E) as (A1 & A2 & A3 & A4 & A5 & A6).
  split; [assumption|]. split; [assumption|]. split; [lia|]. exists (Append k a). rewrite Append_length.
  repeat split; auto; try lia. apply Append_bytes.
Qed.
Lemma signed_back k n : (1 <= k)%nat -> n < 256 ^ N.of_nat k ->
  of_signed k (to_signed k n) = n /\ (- 2 ^ (8 * Z.of_nat k - 1) <= to_signed k n < 2 ^ (8 * Z.of_nat k - 1))%Z.
Proof.
  intros Hk H. unfold of_signed, to_signed. rewrite !pow_256.
  assert (Hz : (Z.of_N n < 2 ^ (8 * Z.of_nat k))%Z) by (rewrite <- pow_256; lia).
  replace (8 * Z.of_nat k)%Z with (1 + (8 * Z.of_nat k - 1))%Z in * by lia.
  rewrite Z.pow_add_r in * by lia. change (2 ^ 1)%Z with 2%Z in *.
  assert (P : (0 < 2 ^ (8 * Z.of_nat k - 1))%Z) by (apply Z.pow_pos_nonneg; lia).
  replace (1 + (8 * Z.of_nat k - 1) - 1)%Z with (8 * Z.of_nat k - 1)%Z by lia.
  set (w := (2 ^ (8 * Z.of_nat k - 1))%Z) in *. clearbody w.
  rewrite (Z.mul_comm 2 w), Z.div_mul by lia.
  destruct (Z.ltb_spec (Z.of_N n) w).
  - rewrite Z.mod_small by lia. split; lia.
  - replace (Z.of_N n - w * 2)%Z with (Z.of_N n + (-1) * (w * 2))%Z by lia.
    rewrite Z.mod_add by lia. rewrite Z.mod_small by lia. split; lia.
Qed.
Lemma con_signed k : (1 <= k <= 1000)%nat -> consumes (ReadSigned k)
  (fun _ z c => c = AppendSigned k z /\ (- 2 ^ (8 * Z.of_nat k - 1) <= z < 2 ^ (8 * Z.of_nat k - 1))%Z).
Proof.
  intros Hk. unfold ReadSigned. eapply con_bind; [apply con_be; lia|]. intros n. apply con_ret. intros v c1 _ [-> H].
  rewrite app_nil_r. unfold AppendSigned. destruct (signed_back k n) as [E1 E2]; [lia | exact H|]. rewrite E1. auto.
Qed.
Lemma con_many {A} (r : reader A) (R : N -> A -> bytes -> Prop) n : consumes r R ->
  consumes (read_many r n) (fun v l c => length l = n /\ exists cs, c = concat cs /\ Forall2 (R v) l cs).
Proof.
  intros H. induction n as [|n IH]; cbn [read_many].
  - apply con_ret. intros v. split; [reflexivity|]. exists []. split; [reflexivity | constructor].
  - eapply con_bind; [exact H|]. intros x. eapply con_bind; [exact IH|]. intros xs. apply con_ret.
    intros v c2 _ (L & cs & -> & F) c1 _ HR. rewrite app_nil_r. split; [cbn; lia|].
    exists (c1 :: cs). split; [reflexivity | constructor; assumption].
Qed.
Lemma be_bytes_split a k : forall hi lo, lo < 256 ^ N.of_nat k ->
  be_bytes (k + a) (hi * 256 ^ N.of_nat k + lo) = be_bytes a hi ++ be_bytes k lo.
Proof.
  induction k as [|k IH]; intros hi lo H; cbn [be_bytes Nat.add].
  - cbn in H. change (256 ^ N.of_nat 0) with 1. rewrite app_nil_r. f_equal. lia.
  - rewrite Nat2N.inj_succ, N.pow_succ_r' in *. set (w := 256 ^ N.of_nat k) in *.
    assert (Q : lo / 256 < w) by (apply N.div_lt_upper_bound; lia).
    replace ((hi * (256 * w) + lo) / 256) with (hi * w + lo / 256).
    + rewrite IH by exact Q. rewrite <- app_assoc. do 3 f_equal.
      replace (hi * (256 * w) + lo) with (lo + hi * w * 256) by lia. rewrite N.mod_add by lia. reflexivity.
    + replace (hi * (256 * w) + lo) with (lo + hi * w * 256) by lia. rewrite N.div_add by lia. lia.
Qed.
