(** C64: onion addresses are read as they were written, and stand for one service each. *)
From Verif Require Import Base TorModel TorSpec TorProofs.
Local Open Scope N_scope.

Section TOR.
Variable sha3 : list N -> list N.
Variable key_valid : list N -> bool.
(** SHA3-256 gives 32 bytes. *)
Hypothesis sha3_bytes : forall l, length (sha3 l) = 32%nat /\ Forall is_byte (sha3 l).

Let checksum (key : list N) (version : N) : list N := firstn 2 (sha3 (checksum_prefix ++ key ++ [version])).
Lemma checksum_bytes key v : length (checksum key v) = 2%nat /\ Forall is_byte (checksum key v).
Proof using sha3_bytes.
  unfold checksum. destruct (sha3_bytes (checksum_prefix ++ key ++ [v])) as [L F]. destruct (sha3 _) as [|a [|b r]]; try discriminate L. cbn [firstn]. split; [reflexivity|].
  constructor; [exact (Forall_inv F)|]. constructor; [exact (Forall_inv (Forall_inv_tail F))|constructor].
Qed.

(** An address is accepted exactly if it is 56 characters that spell a valid key, its checksum and a version; what is returned is that key
    and that version. *)
Theorem C64_parse_exact text a : Parse sha3 key_valid text = Some a <->
  length text = 56%nat /\ exists key v, length key = 32%nat /\ Forall is_byte key /\ is_byte v /\
    spells text (key ++ checksum key v ++ [v]) /\ key_valid key = true /\ a = mkTor text key v.
Proof using sha3_bytes.
  unfold Parse. destruct (Nat.eqb_spec (length text) 56) as [L|L]; [|split; [discriminate | intros [X _]; contradiction]]. split.
  - unfold decode. destruct (indexes text) as [ds|] eqn:E; [|discriminate]. cbn [option_map]. apply indexes_exact in E. pose proof (digits_lt _ _ E) as FD.
    assert (LD : length ds = (8 * 7)%nat) by (rewrite <- (Forall2_length _ _ _ E); exact L). destruct (decode_spec 7 ds LD FD) as (LB & FB & N). rewrite LB. cbn [Nat.eqb Nat.mul Nat.add].
    pose proof (split35 _ LB) as SP. unfold IsValid. destruct (text_eqb _ _ && key_valid _) eqn:V; [|discriminate]. intros X. injection X as <-. apply andb_prop in V. destruct V as [V1 V2].
    apply text_eqb_eq in V1. split; [exact L|]. exists (firstn 32 (decode_blocks ds)), (nth 34 (decode_blocks ds) 0). rewrite firstn_length, LB. repeat split; auto.
    + apply Forall_forall. intros x I. rewrite Forall_forall in FB. apply FB. rewrite <- (firstn_skipn 32 (decode_blocks ds)). apply in_app_iff. auto.
    + rewrite Forall_forall in FB. apply FB. apply nth_In. rewrite LB. lia.
    + exists ds. split; [exact E|]. unfold checksum. fold (BuildChecksum sha3 (firstn 32 (decode_blocks ds)) (nth 34 (decode_blocks ds) 0)). rewrite <- V1, <- SP. symmetry. exact N.
  - intros (_ & key & v & LK & FK & BV & (ds & E & N) & V & ->). pose proof (digits_lt _ _ E) as FD. apply indexes_exact in E as E'. unfold decode. rewrite E'. cbn [option_map].
    assert (LD : length ds = (8 * 7)%nat) by (rewrite <- (Forall2_length _ _ _ E); exact L). destruct (decode_spec 7 ds LD FD) as (LB & FB & N2).
    destruct (checksum_bytes key v) as [LC FC].
    assert (D : decode_blocks ds = key ++ checksum key v ++ [v]).
    { apply (number_inj 256); [rewrite LB, !app_length, LK, LC; reflexivity | exact FB | | congruence]. apply Forall_app. split; [exact FK|]. apply Forall_app. split; [exact FC|]. repeat constructor; assumption. }
    rewrite LB. cbn [Nat.eqb Nat.mul Nat.add]. rewrite D.
    assert (F1 : firstn 32 (key ++ checksum key v ++ [v]) = key) by (rewrite <- LK, firstn_app, firstn_all, Nat.sub_diag; cbn [firstn]; apply app_nil_r).
    assert (F2 : skipn 32 (key ++ checksum key v ++ [v]) = checksum key v ++ [v]) by (rewrite <- LK, skipn_app, skipn_all, Nat.sub_diag; reflexivity).
    assert (F3 : nth 34 (key ++ checksum key v ++ [v]) 0 = v) by (rewrite !app_nth2; rewrite ?LK, ?LC; try lia; reflexivity).
    rewrite F1, F2, F3. rewrite <- LC at 1. rewrite firstn_app, firstn_all, Nat.sub_diag. cbn [firstn]. rewrite app_nil_r. unfold IsValid.
    unfold checksum at 1. fold (BuildChecksum sha3 key v). rewrite (proj2 (text_eqb_eq _ _) eq_refl), V. reflexivity.
Qed.

(** The address made for a key: 56 characters, no capitals, that spell the key, its checksum and the version 3. *)
Theorem C64_written key : length key = 32%nat -> Forall is_byte key -> let a := FromPubKey sha3 key in
  length (ta_text a) = 56%nat /\ Forall lower_case (ta_text a) /\ spells (ta_text a) (key ++ checksum key 3 ++ [3]) /\ ta_key a = key /\ ta_version a = 3.
Proof using sha3_bytes.
  intros LK FK. cbv zeta. unfold FromPubKey. cbn [ta_text ta_key ta_version]. fold (checksum key 3). change (BuildChecksum sha3 key 3) with (checksum key 3).
  destruct (checksum_bytes key 3) as [LC FC].
  assert (LB : length (key ++ checksum key 3 ++ [3]) = (5 * 7)%nat) by (rewrite !app_length, LK, LC; reflexivity).
  destruct (encode_spec 7 (key ++ checksum key 3 ++ [3]) LB) as (ds & E & LD & FD & N).
  { apply Forall_app. split; [exact FK|]. apply Forall_app. split; [exact FC|]. repeat constructor. }
  rewrite E. destruct (spelled ds FD) as (S1 & S2 & _). repeat split; auto.
  - unfold ToLower. rewrite !map_length. exact LD.
  - exists ds. auto.
Qed.
(** It is read back as it was. *)
Theorem C64_read_back key : length key = 32%nat -> Forall is_byte key -> key_valid key = true ->
  Parse sha3 key_valid (ta_text (FromPubKey sha3 key)) = Some (FromPubKey sha3 key).
Proof using sha3_bytes.
  intros LK FK V. destruct (C64_written key LK FK) as (A & _ & S & _). apply C64_parse_exact. split; [exact A|]. exists key, 3. repeat split; auto.
Qed.
(** Two accepted addresses for the same key and version differ at most in capitals, and one text never stands for two keys. *)
Theorem C64_unique_partial t1 t2 a1 a2 : Parse sha3 key_valid t1 = Some a1 -> Parse sha3 key_valid t2 = Some a2 ->
  (ta_key a1 = ta_key a2 -> ta_version a1 = ta_version a2 -> ToLower t1 = ToLower t2) /\
  (ToLower t1 = ToLower t2 -> ta_key a1 = ta_key a2 /\ ta_version a1 = ta_version a2).
Proof using sha3_bytes.
  intros P1 P2. apply C64_parse_exact in P1, P2.
  destruct P1 as (L1 & k1 & v1 & LK1 & FK1 & BV1 & (d1 & E1 & N1) & _ & ->), P2 as (L2 & k2 & v2 & LK2 & FK2 & BV2 & (d2 & E2 & N2) & _ & ->). cbn [ta_key ta_version].
  pose proof (digits_lt _ _ E1) as F1. pose proof (digits_lt _ _ E2) as F2. assert (LL : length d1 = length d2) by (rewrite <- (Forall2_length _ _ _ E1), <- (Forall2_length _ _ _ E2); congruence).
  rewrite (lower_digits _ _ E1), (lower_digits _ _ E2). split.
  - intros -> ->. rewrite <- N2 in N1. rewrite (number_inj 32 d1 d2 LL F1 F2 N1). reflexivity.
  - intros X. destruct (spelled d1 F1) as (S1 & _). destruct (spelled d2 F2) as (S2 & _). rewrite X in S1.
    apply indexes_exact in S1, S2. rewrite S1 in S2. injection S2 as <-. rewrite N1 in N2.
    destruct (checksum_bytes k1 v1) as [LC1 FC1], (checksum_bytes k2 v2) as [LC2 FC2].
    apply number_inj in N2.
    + assert (X1 : k1 = k2). { apply (f_equal (firstn 32)) in N2. rewrite <- LK1 in N2 at 1. rewrite <- LK2 in N2. rewrite !firstn_app, !firstn_all, !Nat.sub_diag in N2. cbn [firstn] in N2. rewrite !app_nil_r in N2. exact N2. }
      split; [exact X1|]. rewrite !app_assoc in N2. apply app_inj_tail in N2. apply N2.
    + rewrite !app_length, LK1, LK2, LC1, LC2. reflexivity.
    + apply Forall_app. split; [exact FK1|]. apply Forall_app. split; [exact FC1|]. repeat constructor; assumption.
    + apply Forall_app. split; [exact FK2|]. apply Forall_app. split; [exact FC2|]. repeat constructor; assumption.
Qed.
(** False: one service has one address. An address in capitals is accepted too, has the same key and version, and is a different address for
    the comparisons of the code. *)
Theorem C64_case_refuted key : length key = 32%nat -> Forall is_byte key -> key_valid key = true ->
  exists t1 t2 a1 a2, Parse sha3 key_valid t1 = Some a1 /\ Parse sha3 key_valid t2 = Some a2 /\
    ta_key a1 = key /\ ta_key a2 = key /\ ta_version a1 = ta_version a2 /\ tor_eqb a1 a2 = false.
Proof using sha3_bytes.
  intros LK FK V. destruct (checksum_bytes key 3) as [LC FC].
  assert (LB : length (key ++ checksum key 3 ++ [3]) = (5 * 7)%nat) by (rewrite !app_length, LK, LC; reflexivity).
  destruct (encode_spec 7 (key ++ checksum key 3 ++ [3]) LB) as (ds & E & LD & FD & N).
  { apply Forall_app. split; [exact FK|]. apply Forall_app. split; [exact FC|]. repeat constructor. }
  destruct (spelled ds FD) as (S1 & S2 & S3).
  assert (X : forall t, Forall2 stands_for t ds -> Parse sha3 key_valid t = Some (mkTor t key 3)).
  { intros t ST. apply C64_parse_exact. split; [rewrite (Forall2_length _ _ _ ST); exact LD|]. exists key, 3. repeat split; auto. exists ds. auto. }
  exists (ToLower (map symbol ds)), (map symbol ds). do 2 eexists. split; [apply X; exact S1|]. split; [apply X; exact S3|]. cbn [ta_key ta_version]. repeat split.
  unfold tor_eqb. cbn [ta_text]. destruct (text_eqb _ _) eqn:T; [|reflexivity]. exfalso. apply text_eqb_eq in T.
  (* the last character stands for 3 *)
  assert (D : exists r x, ds = r ++ [x] /\ x = 3).
  { destruct (@exists_last _ ds) as (r & x & ->); [intros ->; discriminate LD|]. exists r, x. split; [reflexivity|].
    rewrite app_assoc, (number_app 32), (number_app 256 (key ++ checksum key 3)) in N. unfold number at 2 4 in N. cbn [fold_left length] in N. change (32 ^ N.of_nat 1) with 32 in N. change (256 ^ N.of_nat 1) with 256 in N.
    apply Forall_app in FD. destruct FD as [_ FD]. assert (x < 32) by exact (Forall_inv FD). lia. }
  destruct D as (r & x & -> & ->). unfold ToLower in T. rewrite !map_app in T. apply app_inj_tail in T. destruct T as [_ T]. discriminate T.
Qed.
(** False: only addresses of version 3 are accepted. Every version is. *)
Theorem C64_version_refuted key v : length key = 32%nat -> Forall is_byte key -> key_valid key = true -> is_byte v ->
  exists t a, Parse sha3 key_valid t = Some a /\ ta_key a = key /\ ta_version a = v.
Proof using sha3_bytes.
  intros LK FK V BV. destruct (checksum_bytes key v) as [LC FC].
  assert (LB : length (key ++ checksum key v ++ [v]) = (5 * 7)%nat) by (rewrite !app_length, LK, LC; reflexivity).
  destruct (encode_spec 7 (key ++ checksum key v ++ [v]) LB) as (ds & E & LD & FD & N).
  { apply Forall_app. split; [exact FK|]. apply Forall_app. split; [exact FC|]. repeat constructor; assumption. }
  destruct (spelled ds FD) as (S1 & _). exists (ToLower (map symbol ds)), (mkTor (ToLower (map symbol ds)) key v). split; [|auto].
  apply C64_parse_exact. split; [rewrite (Forall2_length _ _ _ S1); exact LD|]. exists key, v. repeat split; auto. exists ds. auto.
Qed.
End TOR.

(** A case, with a stand-in for the hash: the address of a key, and the same in capitals. *)
Definition toy_sha3 (l : list N) : list N := (fold_left N.add l 0 mod 256) :: repeat 7 31.
Theorem C64_example : (forall l, length (toy_sha3 l) = 32%nat /\ Forall is_byte (toy_sha3 l)) /\
  let key := map (fun i => (N.of_nat i * 37 + 5) mod 256) (seq 0 32) in
  let a := FromPubKey toy_sha3 key in
  length key = 32%nat /\ Forall is_byte key /\ firstn 4 (ta_text a) = [97; 117; 118; 101] /\
  Parse toy_sha3 (fun _ => true) (ta_text a) = Some a /\
  Parse toy_sha3 (fun _ => true) (98 :: tl (ta_text a)) = None.
Proof.
  split.
  - intros l. split; [reflexivity|]. constructor; [apply N.mod_lt; discriminate|]. apply Forall_forall. intros x I. apply repeat_spec in I. subst x. reflexivity.
  - vm_compute. repeat split; auto. repeat (apply Forall_cons; [reflexivity|]). apply Forall_nil.
Qed.

Definition tor_theorems := (@C64_parse_exact, @C64_written, @C64_read_back, @C64_unique_partial, @C64_case_refuted, @C64_version_refuted, C64_example).
Print Assumptions tor_theorems.
