From Verif Require Import Base Bytes FileModel SerialModel SerialSpec SerialProofs CodecModel CodecSpec CodecProofs SlateCodecModel SlateCodecSpec.
Local Open Scope N_scope.

Lemma bytes_eqb_eq a b : bytes_eqb a b = true <-> a = b.
Proof. unfold bytes_eqb. destruct (list_eq_dec N.eq_dec a b); split; congruence. Qed.
Lemma opt_eqb_eq {A} (eqb : A -> A -> bool) (H : forall x y, eqb x y = true <-> x = y) a b : opt_eqb eqb a b = true <-> a = b.
Proof. destruct a, b; cbn; try rewrite H; split; congruence. Qed.
Lemma list_eqb_eq {A} (eqb : A -> A -> bool) (H : forall x y, eqb x y = true <-> x = y) a : forall b, list_eqb eqb a b = true <-> a = b.
Proof.
  induction a; intros [|y b]; cbn; try (split; congruence). rewrite andb_true_iff, H, IHa. split; [intros [-> ->]; reflexivity|].
  intros E. injection E as -> ->. auto.
Qed.
Lemma sig_eqb_eq a b : sig_eqb a b = true <-> a = b.
Proof.
  unfold sig_eqb. rewrite !andb_true_iff, !bytes_eqb_eq, (opt_eqb_eq _ bytes_eqb_eq). destruct a, b; cbn. split.
  - intros ((-> & ->) & ->). reflexivity.
  - intros E. injection E as -> -> ->. auto.
Qed.
Lemma com_eqb_eq a b : com_eqb a b = true <-> a = b.
Proof.
  unfold com_eqb. rewrite !andb_true_iff, !bytes_eqb_eq, (opt_eqb_eq _ bytes_eqb_eq), N.eqb_eq. destruct a, b; cbn. split.
  - intros ((-> & ->) & ->). reflexivity.
  - intros E. injection E as -> -> ->. auto.
Qed.
Lemma proof_eqb_eq a b : proof_eqb a b = true <-> a = b.
Proof.
  unfold proof_eqb. rewrite !andb_true_iff, !bytes_eqb_eq, (opt_eqb_eq _ bytes_eqb_eq). destruct a, b; cbn. split.
  - intros ((-> & ->) & ->). reflexivity.
  - intros E. injection E as -> -> ->. auto.
Qed.
Lemma Fee_eqb_eq a b : Fee_eqb a b = true <-> a = b.
Proof.
  unfold Fee_eqb. rewrite andb_true_iff, !N.eqb_eq. destruct a, b; cbn. split; [intros [-> ->]; reflexivity|].
  intros E. injection E as -> ->. auto.
Qed.
Lemma stage_eqb_eq a b : stage_eqb a b = true <-> a = b.
Proof. destruct a, b; cbv; split; congruence. Qed.
Lemma slate_eqb_spec a b : slate_eqb a b = true <->
  same_but_version_and_args a b /\ sl_blockVersion a <> 0 /\ sl_blockVersion b <> 0.
Proof.
  unfold slate_eqb, same_but_version_and_args.
  rewrite !andb_true_iff, !negb_true_iff, !bytes_eqb_eq, !N.eqb_eq, !N.eqb_neq, stage_eqb_eq, Fee_eqb_eq.
  rewrite (list_eqb_eq _ sig_eqb_eq), (list_eqb_eq _ com_eqb_eq), (opt_eqb_eq _ proof_eqb_eq). tauto.
Qed.

Section P.
Variable parse : bytes -> option bytes.
Variable compact : bytes -> bytes.
Notation Slate_Ser := (Slate_Serialize parse).
Notation Slate_De := (Slate_Deserialize compact).

Lemma stage_byte s : s <> S_NONE -> Stage_FromByte (Stage_ToByte s) = Ret s /\ Stage_ToByte s < 256.
Proof. destruct s; intros H; [congruence|..]; split; reflexivity. Qed.

Lemma dec_sig v g : sig_ok parse compact g -> exists bs, Sig_Serialize parse g = Ret bs /\ decodes v (Sig_Deserialize compact) bs g.
Proof.
  destruct g as [x n p]. intros (L1 & L2 & P). cbn [sg_excess sg_nonce sg_partial] in *. unfold Sig_Serialize, Sig_Deserialize, ReadU8, ReadBigInteger.
  cbn [sg_excess sg_nonce sg_partial]. destruct p as [p|].
  - destruct P as (s & P1 & P2 & P3). unfold ParseCompactSignature. rewrite P1. cbn [obind]. eexists. split; [reflexivity|].
    apply dec_bind with 1; [apply dec_be; reflexivity|]. apply dec_bind with x; [apply dec_vector; lia|].
    apply dec_bind with n; [apply dec_vector; lia|]. cbn [N.ltb N.compare].
    apply dec_last with s; [apply dec_vector; lia|]. rewrite P3. reflexivity.
  - eexists. split; [reflexivity|].
    apply dec_bind with 0; [apply dec_be; reflexivity|]. apply dec_bind with x; [apply dec_vector; lia|].
    apply dec_bind_end with n; [apply dec_vector; lia|]. apply dec_ret.
Qed.
Lemma dec_com v c : com_ok c -> decodes v Com_Deserialize (Com_Serialize c) c.
Proof.
  destruct c as [f c p]. intros (F & L & P). cbn [sc_features sc_commitment sc_proof] in *. unfold Com_Serialize, Com_Deserialize, ReadU8, ReadBigInteger.
  cbn [sc_features sc_commitment sc_proof]. destruct p as [p|].
  - apply dec_bind with 1; [apply dec_be; reflexivity|]. apply dec_bind with f; [apply dec_be; exact F|].
    apply dec_bind with c; [apply dec_vector; lia|]. cbn [N.ltb N.compare].
    apply dec_last with p; [apply dec_rangeproof; exact P|reflexivity].
  - apply dec_bind with 0; [apply dec_be; reflexivity|]. apply dec_bind with f; [apply dec_be; exact F|].
    apply dec_bind with c; [apply dec_vector; lia|]. apply dec_ret.
Qed.
Lemma dec_pproof v p : pproof_ok p -> decodes v Proof_Deserialize (Proof_Serialize p) p.
Proof.
  destruct p as [a b s]. intros (L1 & L2 & P). cbn [sp_sender sp_receiver sp_signature] in *. unfold Proof_Serialize, Proof_Deserialize, ReadU8, ReadBigInteger.
  cbn [sp_sender sp_receiver sp_signature].
  apply dec_bind with a; [apply dec_vector; lia|]. apply dec_bind with b; [apply dec_vector; lia|]. destruct s as [s|].
  - apply dec_bind with 1; [apply dec_be; reflexivity|]. cbn [N.eqb Pos.eqb]. apply dec_last with s; [apply dec_vector; lia|reflexivity].
  - apply dec_bind_end with 0; [apply dec_be; reflexivity|]. apply dec_ret.
Qed.

Lemma serialize_all_dec {A} v (f : A -> outcome bytes) (r : reader A) l :
  Forall (fun a => exists bs, f a = Ret bs /\ decodes v r bs a) l ->
  exists bs, serialize_all f l = Ret bs /\ decodes v (read_many r (length l)) bs l.
Proof.
  induction 1 as [|a l (b & E & D) F (bs & E2 & D2)]; cbn [serialize_all length read_many].
  - exists []. split; [reflexivity | apply dec_ret].
  - rewrite E. cbn [obind]. rewrite E2. cbn [obind]. eexists. split; [reflexivity|].
    apply dec_bind with a; [exact D|]. apply dec_last with l; [exact D2 | reflexivity].
Qed.

Lemma field_bits a b c d e : let n := FieldStatus_ToByte a b c d e in
  n < 256 /\ N.testbit n 0 = a /\ N.testbit n 1 = b /\ N.testbit n 2 = c /\ N.testbit n 3 = d /\ N.testbit n 4 = e.
Proof. destruct a, b, c, d, e; cbv; repeat split. Qed.
Lemma struct_bits a b : let n := StructStatus_ToByte a b in n < 256 /\ N.testbit n 0 = a /\ N.testbit n 1 = b.
Proof. destruct a, b; cbv; repeat split. Qed.

(** A field written only when it differs from its default. *)
Lemma dec_optional {A} v (eqb : A -> A -> bool) (r : reader A) (enc : A -> bytes) (x d : A) :
  (eqb x d = true -> x = d) -> decodes v r (enc x) x ->
  decodes v (if negb (eqb x d) then r else rret d) (if negb (eqb x d) then enc x else []) x.
Proof. intros H D. destruct (eqb x d) eqn:E; cbn [negb]; [rewrite H by reflexivity; apply dec_ret | exact D]. Qed.

Lemma dec_slate v s : slate_ok parse compact s -> exists bs, Slate_Ser s = Ret bs /\ decodes v Slate_De bs s.
Proof.
  destruct s as [id stg ver bver np ttl kf fa off amt fee sigs coms prf].
  intros ((C1 & C2 & C3 & C4 & C5 & C6 & C7 & C8 & C9 & C10 & C11) & A & FS & FC & LS & LC).
  cbn [sl_id sl_stage sl_version sl_blockVersion sl_numParticipants sl_ttl sl_kernelFeatures sl_featureArgs sl_offset sl_amount sl_fee sl_sigs sl_commitments sl_proof] in *.
  unfold Slate_Serialize.
  cbn [sl_id sl_stage sl_version sl_blockVersion sl_numParticipants sl_ttl sl_kernelFeatures sl_featureArgs sl_offset sl_amount sl_fee sl_sigs sl_commitments sl_proof] in *.
  destruct (serialize_all_dec v (Sig_Serialize parse) (Sig_Deserialize compact) sigs) as (sb & SE & SD).
  { apply Forall_impl with (2 := FS). intros g G. apply dec_sig. exact G. }
  rewrite SE. cbn [obind]. eexists. split; [reflexivity|].
  pose proof (field_bits (negb (np =? 2)) (negb (amt =? 0)) (negb (Fee_eqb fee (mkFee 0 0))) (negb (kf =? DEFAULT_KERNEL)) (negb (ttl =? 0))) as FB.
  cbv zeta in FB. destruct FB as (B & B0 & B1 & B2 & B3 & B4).
  set (fbyte := FieldStatus_ToByte _ _ _ _ _) in *. clearbody fbyte.
  pose proof (struct_bits (match coms with [] => false | _ => true end) (match prf with Some _ => true | None => false end)) as SB.
  cbv zeta in SB. destruct SB as (D & D0 & D1). set (sbyte := StructStatus_ToByte _ _) in *. clearbody sbyte.
  destruct (stage_byte stg C2) as [ST1 ST2].
  unfold Slate_Deserialize, ReadU8, ReadU16, ReadU64, ReadBigInteger.
  apply dec_bind with ver; [apply dec_be; exact C3|]. apply dec_bind with bver; [apply dec_be; exact C4|].
  apply dec_bind with id; [apply dec_vector; lia|]. apply dec_bind with (Stage_ToByte stg); [apply dec_be; exact ST2|].
  rewrite ST1. apply dec_bind_nil with stg; [apply dec_ret|]. apply dec_bind with off; [apply dec_vector; lia|].
  apply dec_bind with fbyte; [apply dec_be; exact B|]. rewrite B0, B1, B2, B3, B4.
  apply dec_bind with np; [apply (dec_optional v N.eqb (ReadBigEndian 1) (Append 1)); [apply N.eqb_eq | apply dec_be; exact C5]|].
  apply dec_bind with amt; [apply (dec_optional v N.eqb (ReadBigEndian 8) (Append 8)); [apply N.eqb_eq | apply dec_be; exact C9]|].
  apply dec_bind with fee; [apply (dec_optional v Fee_eqb Fee_Deserialize Fee_Serialize); [apply Fee_eqb_eq | apply dec_fee; exact C10]|].
  apply dec_bind with kf; [apply (dec_optional v N.eqb (ReadBigEndian 1) (Append 1)); [apply N.eqb_eq | apply dec_be; exact C7]|].
  apply dec_bind with ttl; [apply (dec_optional v N.eqb (ReadBigEndian 8) (Append 8)); [apply N.eqb_eq | apply dec_be; exact C6]|].
  assert (NS : nlen sigs mod W8 = nlen sigs) by (apply N.mod_small; unfold nlen; lia).
  rewrite NS. apply dec_bind with (nlen sigs); [apply dec_be; unfold nlen; change (256 ^ N.of_nat 1) with 256; lia|].
  unfold nlen at 1. rewrite Nat2N.id. apply dec_bind with sigs; [exact SD|].
  apply dec_bind with sbyte; [apply dec_be; exact D|]. rewrite D0, D1.
  apply dec_bind with coms.
  { destruct coms as [|c coms]; [apply dec_ret|].
    assert (NC : nlen (c :: coms) mod W16 = nlen (c :: coms)) by (apply N.mod_small; unfold nlen; lia).
    rewrite NC. apply dec_bind with (nlen (c :: coms)).
    - apply dec_be. change (256 ^ N.of_nat 2) with 65536. unfold nlen. lia.
    - unfold nlen. rewrite Nat2N.id. apply dec_many. apply Forall_impl with (2 := FC). intros x X. apply dec_com. exact X. }
  apply dec_bind with prf.
  { destruct prf as [p|]; [|apply dec_ret]. apply dec_last with p; [apply dec_pproof; exact C11 | reflexivity]. }
  apply dec_bind_end with fa; [|apply dec_ret].
  unfold args_ok in A. cbn [sl_featureArgs sl_kernelFeatures] in A. unfold GetLockHeight. cbn [sl_featureArgs].
  destruct fa as [[l]|]; cbn [fa_lockHeight] in *.
  - destruct A as [A1 A2]. apply N.eqb_neq in A1. unfold DEFAULT_KERNEL. rewrite A1. cbn [negb]. destruct l as [h|].
    + destruct A2 as [-> A3]. change (2 =? HEIGHT_LOCKED) with true. apply dec_last with (Some h); [|reflexivity].
      apply dec_last with h; [apply dec_be; exact A3 | reflexivity].
    + apply N.eqb_neq in A2. unfold HEIGHT_LOCKED. rewrite A2. apply dec_last with (@None N); [apply dec_ret | reflexivity].
  - subst kf. apply dec_ret.
Qed.

Lemma safe_sig : safe (Sig_Deserialize compact).
Proof. unfold Sig_Deserialize, ReadU8, ReadBigInteger. repeat safe_step. Qed.
Lemma safe_com : safe Com_Deserialize.
Proof. unfold Com_Deserialize, ReadU8, ReadBigInteger. repeat first [apply safe_rangeproof | safe_step]. Qed.
Lemma safe_pproof : safe Proof_Deserialize.
Proof. unfold Proof_Deserialize, ReadU8, ReadBigInteger. repeat safe_step. Qed.
Lemma safe_slate : safe Slate_De.
Proof.
  unfold Slate_Deserialize, ReadU8, ReadU16, ReadU64, ReadBigInteger.
  repeat first [apply safe_sig | apply safe_com | apply safe_pproof | apply safe_fee | safe_step].
  destruct (Stage_FromByte a2); safe_step.
Qed.

(** Whatever is accepted has at most 255 signatures and 65535 commitments. *)
Definition yields {A} (r : reader A) (P : A -> Prop) : Prop :=
  forall b a b', good_buffer b -> is_bytes (m_bytes b) -> r b = Ret (a, b') -> P a.
Lemma con_yields {A} (r : reader A) R (P : A -> Prop) : consumes r R -> (forall v a c, R v a c -> P a) -> yields r P.
Proof. intros C H b a b' G B E. destruct (C b a b' G B E) as (_ & _ & _ & c & _ & _ & _ & K). eapply H, K. Qed.
Lemma yields_bind {A B} (r : reader A) (k : A -> reader B) (Q : A -> Prop) (P : B -> Prop) :
  safe r -> yields r Q -> (forall a, Q a -> yields (k a) P) -> yields (rbind r k) P.
Proof.
  intros S Y K b x b' G B0 E. unfold rbind in E. specialize (S b G B0). destruct (r b) as [[a b1]| |] eqn:E1; try discriminate.
  cbn [obind fst snd] in E. destruct S as (F1 & F2 & F3).
  apply (K a (Y b a b1 G B0 E1) b1 x b'); [split; rewrite F1; destruct G; [lia | assumption] | rewrite F1; exact B0 | exact E].
Qed.
Lemma yields_any {A} (r : reader A) : yields r (fun _ => True).
Proof. intros b a b' _ _ _. trivial. Qed.
Lemma yields_ret {A} (a : A) (P : A -> Prop) : P a -> yields (rret a) P.
Proof. intros H b x b' _ _ E. inversion E; subst. exact H. Qed.
Lemma many_length {A} (r : reader A) n : yields (read_many r n) (fun l => length l = n).
Proof.
  intros b a b' _ _. revert b a b'. induction n as [|n IH]; intros b a b' E; cbn [read_many] in E.
  - inversion E. reflexivity.
  - unfold rbind in E. destruct (r b) as [[x b1]| |]; try discriminate. cbn [obind fst snd] in E.
    destruct (read_many r n b1) as [[xs b2]| |] eqn:E2; try discriminate. cbn [obind fst snd] in E. inversion E; subst.
    cbn [length]. f_equal. eapply IH. exact E2.
Qed.
Lemma be_yields k : (k <= 1000)%nat -> yields (ReadBigEndian k) (fun n => n < 256 ^ N.of_nat k).
Proof. intros H. eapply con_yields; [apply con_be; exact H|]. intros v a c [_ K]. exact K. Qed.

Ltac ystep := eapply yields_bind; [solve [repeat first [apply safe_sig | apply safe_com | apply safe_pproof | apply safe_fee | safe_step]] | apply yields_any | intros ? _].
Lemma slate_counts : yields Slate_De (fun s => (length (sl_sigs s) <= 255)%nat /\ N.of_nat (length (sl_commitments s)) <= 65535).
Proof.
  unfold Slate_Deserialize, ReadU8, ReadU16, ReadU64, ReadBigInteger.
  do 4 ystep. eapply yields_bind; [destruct (Stage_FromByte a2); safe_step | apply yields_any | intros ? _].
  do 7 ystep. eapply yields_bind; [safe_step | apply be_yields; lia|]. intros ns NS. cbn beta in NS. change (256 ^ N.of_nat 1) with 256 in NS.
  eapply yields_bind; [safe_step; apply safe_sig | apply many_length|]. intros sigs LS. cbn beta in LS. ystep.
  apply yields_bind with (fun coms : list slate_com => N.of_nat (length coms) <= 65535).
  - repeat first [apply safe_com | safe_step].
  - match goal with |- yields (if ?c then _ else _) _ => destruct c end; [|apply yields_ret; cbn; lia].
    eapply yields_bind; [safe_step | apply be_yields; lia|]. intros nc NC. cbn beta in NC. change (256 ^ N.of_nat 2) with 65536 in NC.
    intros bb l bb' G B E. rewrite (many_length _ _ bb l bb' G B E). lia.
  - intros coms LC. cbn beta in LC. do 2 ystep. apply yields_ret. cbn [sl_sigs sl_commitments]. split; lia.
Qed.
End P.

(** * JSON *)
Lemma omap_all_id {A B} (f : A -> outcome B) (g : A -> B) l : Forall (fun a => f a = Ret (g a)) l -> omap_all f l = Ret (map g l).
Proof. induction 1 as [|a l H F IH]; cbn; [reflexivity|]. rewrite H. cbn. rewrite IH. reflexivity. Qed.
Lemma is_null_zero b : is_null b = true -> b = repeat 0 (length b).
Proof.
  induction b as [|x b IH]; cbn; [reflexivity|]. rewrite andb_true_iff, N.eqb_eq. intros [-> H]. f_equal. apply IH. exact H.
Qed.
Lemma getN_default x d : getN (if x =? d then None else Some x) d = x.
Proof. destruct (N.eqb_spec x d); cbn; congruence. Qed.
Lemma json_round_trip s : json_ok s -> obind (Slate_ToJSON s) Slate_FromJSON = Ret s.
Proof.
  destruct s as [id stg ver bver np ttl kf fa off amt fee sigs coms prf].
  intros ((C1 & C2 & C3 & C4 & C5 & C6 & C7 & C8 & C9 & C10 & C11) & K & A & SH & FS & FC).
  cbn [sl_id sl_stage sl_version sl_blockVersion sl_numParticipants sl_ttl sl_kernelFeatures sl_featureArgs sl_offset sl_amount sl_fee sl_sigs sl_commitments sl_proof] in *.
  subst kf fa. unfold Slate_ToJSON.
  cbn [sl_id sl_stage sl_version sl_blockVersion sl_numParticipants sl_ttl sl_kernelFeatures sl_featureArgs sl_offset sl_amount sl_fee sl_sigs sl_commitments sl_proof].
  assert (FE : (if Fee_eqb fee (mkFee 0 0) then Ret None else omap Some (Fee_ToJSON fee)) = Ret (if Fee_eqb fee (mkFee 0 0) then None else Some (m_fee fee))).
  { destruct (Fee_eqb fee (mkFee 0 0)); [reflexivity|]. rewrite fee_json_value by (unfold fee_ok in C10; lia). rewrite SH. cbn. reflexivity. }
  rewrite FE. cbn [obind]. change (0 =? DEFAULT_KERNEL) with true. cbn [obind fst snd]. unfold Slate_FromJSON.
  cbn [js_ver js_id js_sta js_off js_num_parts js_fee js_amt js_feat js_feat_args js_ttl js_sigs js_coms js_proof fst snd].
  assert (OE : match (if is_null off then None else Some off) with
               | Some o => if nlen o =? 32 then Ret o else Throw | None => Ret (repeat 0 32) end = Ret off).
  { destruct (is_null off) eqn:E; [rewrite (is_null_zero off E), C8; reflexivity|]. unfold nlen. rewrite C8. reflexivity. }
  rewrite OE. cbn [obind].
  rewrite (omap_all_id Sig_FromJSON (fun g => g) sigs), map_id.
  2: { apply Forall_impl with (2 := FS). intros g (L1 & L2 & P). unfold Sig_FromJSON, nlen. rewrite L1, L2. destruct (sg_partial g); [rewrite P|]; reflexivity. }
  cbn [obind].
  assert (CE : omap_all Com_FromJSON (map Com_ToJSON coms) = Ret coms).
  { clear - FC. induction FC as [|c l (F & L & P) FC IH]; [reflexivity|]. cbn [map omap_all].
    assert (E : Com_FromJSON (Com_ToJSON c) = Ret c).
    { destruct c as [f c p]. cbn [sc_features sc_commitment sc_proof] in *. unfold Com_FromJSON, Com_ToJSON, nlen.
      cbn [jc_c jc_f jc_p sc_features sc_commitment sc_proof]. rewrite L. cbn [negb N.eqb].
      assert (X : (if getN (if f =? 1 then Some 1 else None) 0 =? 1 then 1 else 0) = f) by (clear - F; destruct (N.eqb_spec f 1) as [->|Hf]; [reflexivity|]; change (0 = f); lia).
      rewrite X. change (negb (N.of_nat 33 =? 33)) with false. cbn iota. destruct p as [p|]; [|reflexivity]. rewrite P. reflexivity. }
    rewrite E. cbn [obind]. rewrite IH. reflexivity. }
  rewrite CE. cbn [obind].
  assert (PE : match prf with Some p => omap Some (Proof_FromJSON p) | None => Ret None end = Ret prf).
  { destruct prf as [p|]; [|reflexivity]. destruct C11 as (L1 & L2 & P). unfold Proof_FromJSON, nlen. rewrite L1, L2.
    destruct (sp_signature p); [rewrite P|]; reflexivity. }
  rewrite PE. cbn [obind]. rewrite !getN_default. rewrite (N.mod_small ver), (N.mod_small bver), (N.mod_small np) by assumption.
  f_equal. f_equal. destruct (Fee_eqb fee (mkFee 0 0)) eqn:E; [symmetry; apply Fee_eqb_eq; exact E|].
  unfold Fee_FromJSON. destruct fee as [sh f]. cbn [m_shift m_fee] in *. congruence.
Qed.

(** * Stored slates *)
Lemma latest_spec rows : let r := fold_left latest_step rows (S_NONE, (None, [])) in
  (fst (snd r) = None -> forall row, In row rows -> r_slate row = None) /\
  (forall s, fst (snd r) = Some s ->
     exists pre row post, rows = pre ++ row :: post /\ r_slate row = Some s /\ r_stage row = fst r /\
       snd (snd r) = match r_armored row with Some a => a | None => [] end /\
       (forall x, In x rows -> r_slate x <> None -> Stage_ToByte (r_stage x) <= Stage_ToByte (r_stage row)) /\
       (forall x, In x post -> r_slate x <> None -> Stage_ToByte (r_stage x) < Stage_ToByte (r_stage row))) /\
  (fst (snd r) = None -> fst r = S_NONE).
Proof.
  induction rows as [|x rows IH] using rev_ind; cbv zeta in *.
  - cbn. repeat split; try congruence; try (intros; contradiction).
  - rewrite fold_left_app. cbn [fold_left]. destruct (fold_left latest_step rows (S_NONE, (None, []))) as [hs [os ar]].
    cbn [fst snd] in *. destruct IH as (I1 & I2 & I3). unfold latest_step. cbn [fst].
    destruct (N.ltb_spec (Stage_ToByte (r_stage x)) (Stage_ToByte hs)) as [H|H]; cbn [fst snd].
    + split; [|split; [|exact I3]].
      * intros E. rewrite (I3 E) in H. cbn in H. lia.
      * intros s E. destruct (I2 s E) as (pre & row & post & -> & R1 & R2 & R3 & R4 & R5). exists pre, row, (post ++ [x]).
        rewrite <- app_assoc. cbn [app]. repeat split; auto.
        -- intros y Y NY. replace (pre ++ row :: post ++ [x]) with ((pre ++ row :: post) ++ [x]) in Y by (rewrite <- app_assoc; reflexivity).
           apply in_app_iff in Y. destruct Y as [Y|[<-|[]]]; [apply R4; assumption|]. rewrite R2. lia.
        -- intros y Y NY. apply in_app_iff in Y. destruct Y as [Y|[<-|[]]]; [apply R5; assumption|]. rewrite R2. exact H.
    + destruct (r_slate x) as [s'|] eqn:E; cbn [fst snd].
      * split; [discriminate|]. split; [|discriminate]. intros s Es. injection Es as <-. exists rows, x, [].
        split; [reflexivity|]. split; [exact E|]. split; [reflexivity|]. split; [reflexivity|]. split; [|intros y []].
        intros y Y NY. apply in_app_iff in Y. destruct Y as [Y|[<-|[]]]; [|lia].
        destruct os as [s0|].
        -- destruct (I2 s0 eq_refl) as (pre & row & post & _ & R1 & R2 & _ & R4 & _). specialize (R4 y Y NY). rewrite R2 in R4. lia.
        -- exfalso. apply NY. apply I1; auto.
      * split; [|split; [|exact I3]].
        -- intros E0 row Y. apply in_app_iff in Y. destruct Y as [Y|[<-|[]]]; auto.
        -- intros s E0. destruct (I2 s E0) as (pre & row & post & -> & R1 & R2 & R3 & R4 & R5). exists pre, row, (post ++ [x]).
           rewrite <- app_assoc. cbn [app]. repeat split; auto.
           ++ intros y Y NY. replace (pre ++ row :: post ++ [x]) with ((pre ++ row :: post) ++ [x]) in Y by (rewrite <- app_assoc; reflexivity).
              apply in_app_iff in Y. destruct Y as [Y|[<-|[]]]; [apply R4; assumption | congruence].
           ++ intros y Y NY. apply in_app_iff in Y. destruct Y as [Y|[<-|[]]]; [apply R5; assumption | congruence].
Qed.

Lemma armored_step_eq acc r : armored_step acc r = match r_armored r with Some a => a | None => acc end.
Proof. unfold armored_step. destruct (r_armored r); [|reflexivity]. destruct (r_stage r); reflexivity. Qed.
Lemma armored_last rows : forall acc, fold_left armored_step rows acc =
  match rev (filter (fun r => match r_armored r with Some _ => true | None => false end) rows) with
  | r :: _ => match r_armored r with Some a => a | None => acc end | [] => acc end.
Proof.
  induction rows as [|x rows IH] using rev_ind; intros acc; [reflexivity|].
  rewrite fold_left_app, filter_app, rev_app_distr. cbn [fold_left filter]. rewrite armored_step_eq.
  destruct (r_armored x) as [a|] eqn:E; cbn [rev app]; [rewrite E; reflexivity|]. apply IH.
Qed.
