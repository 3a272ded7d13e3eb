(** C51: the encodings of a slate and the choice of the stored slate. *)
From Verif Require Import Base Bytes FileModel SerialModel SerialSpec SerialProofs CodecModel CodecSpec CodecProofs SlateCodecModel SlateCodecSpec SlateCodecProofs.
Local Open Scope N_scope.

(** A well-formed slate is written without failure, and reading the bytes back, at any position of any
    buffer, gives the same slate and consumes exactly them. *)
Theorem C51_binary_round_trip parse compact v s : slate_ok parse compact s ->
  exists bs, Slate_Serialize parse s = Ret bs /\ decodes v (Slate_Deserialize compact) bs s.
Proof. exact (dec_slate parse compact v s). Qed.

(** Different slates have different bytes, even when more bytes follow. *)
Theorem C51_binary_distinct parse compact s t bs cs x y : slate_ok parse compact s -> slate_ok parse compact t ->
  Slate_Serialize parse s = Ret bs -> Slate_Serialize parse t = Ret cs ->
  N.of_nat (length (bs ++ x)) < W64 -> bs ++ x = cs ++ y -> s = t /\ x = y.
Proof.
  intros Hs Ht Es Et L E. destruct (dec_slate parse compact 1 s Hs) as (b1 & E1 & D1). rewrite Es in E1. injection E1 as <-.
  destruct (dec_slate parse compact 1 t Ht) as (c1 & E2 & D2). rewrite Et in E2. injection E2 as <-.
  pose proof (D1 [] x L) as R1. assert (L2 : N.of_nat (length (cs ++ y)) < W64) by (rewrite <- E; exact L).
  pose proof (D2 [] y L2) as R2. cbn [app] in R1, R2. rewrite <- E, R1 in R2. injection R2 as -> _.
  split; [reflexivity|]. rewrite Es in Et. injection Et as <-. apply app_inv_head in E. exact E.
Qed.

(** Reading a slate from arbitrary bytes returns or throws; it never reads outside the buffer. *)
Theorem C51_stays_inside compact : safe (Slate_Deserialize compact).
Proof. exact (safe_slate (fun _ => None) compact). Qed.

(** Whatever the bytes, a slate that is read has at most 255 signatures and 65535 commitments. *)
Theorem C51_counts compact b s b' : good_buffer b -> is_bytes (m_bytes b) ->
  Slate_Deserialize compact b = Ret (s, b') -> (length (sl_sigs s) <= 255)%nat /\ N.of_nat (length (sl_commitments s)) <= 65535.
Proof. exact (slate_counts (fun _ => None) compact b s b'). Qed.

(** So a slate with more participants' signatures, or more inputs and outputs, is written without any
    error but is never read back, although its JSON form carries it. *)
Theorem C51_too_many_refuted parse compact v s bs :
  (256 <= length (sl_sigs s))%nat \/ 65536 <= N.of_nat (length (sl_commitments s)) ->
  Slate_Serialize parse s = Ret bs -> is_bytes bs -> N.of_nat (length bs) < 2 ^ 63 ->
  ~ decodes v (Slate_Deserialize compact) bs s.
Proof.
  intros M _ B L D. assert (L64 : N.of_nat (length ([] ++ bs ++ [])) < W64).
  { rewrite app_nil_r. cbn [app]. rewrite p63 in L. lia. }
  pose proof (D [] [] L64) as R. rewrite app_nil_r in R. cbn [app] in R.
  apply (slate_counts (fun _ => None) compact) in R; [lia | split; cbn [m_index m_bytes length]; [lia | exact L] | exact B].
Qed.
Definition many_sigs : slate :=
  mkSlate (repeat 7 16) S2 4 5 255 0 0 None (repeat 1 32) 1000 (mkFee 0 8000000) (repeat (mkSSig (repeat 2 33) (repeat 3 33) None) 256) [] None.
Example C51_too_many_case : json_ok many_sigs /\ (256 <= length (sl_sigs many_sigs))%nat /\
  exists bs, Slate_Serialize (fun p => Some p) many_sigs = Ret bs /\ forallb (fun x => x <? 256) bs = true /\ N.of_nat (length bs) < 2 ^ 63.
Proof.
  split; [|split; [apply Nat.leb_le; vm_compute; reflexivity|]].
  - unfold json_ok, common_ok, many_sigs, fee_ok.
    cbn [sl_id sl_stage sl_version sl_blockVersion sl_numParticipants sl_ttl sl_kernelFeatures sl_featureArgs sl_offset sl_amount sl_fee sl_sigs sl_commitments sl_proof m_shift m_fee].
    split; [repeat split; try reflexivity; discriminate|]. repeat (split; [reflexivity|]). split; [|constructor].
    apply Forall_forall. intros g G. apply repeat_spec in G. subst g. repeat split.
  - eexists. split; [vm_compute; reflexivity|]. split; vm_compute; reflexivity.
Qed.

(** A partial signature the library refuses is not noticed on reading; writing such a slate back is
    undefined behaviour. Any 64 bytes can be put in a received slate. *)
Theorem C51_refused_signature_refuted parse compact (sig : bytes) : length sig = 64%nat -> is_bytes sig -> parse (compact sig) = None ->
  exists bs s b', is_bytes bs /\ Slate_Deserialize compact (mkBB 0 bs 1) = Ret (s, b') /\ Slate_Serialize parse s = Fault.
Proof.
  intros L B P.
  pose (s := mkSlate (repeat 7 16) S2 4 5 2 0 0 None (repeat 1 32) 1000 (mkFee 0 8000000) [mkSSig (repeat 2 33) (repeat 3 33) (Some (compact sig))] [] None).
  destruct (dec_slate (fun _ => Some sig) compact 1 s) as (bs & E & D).
  { unfold slate_ok, common_ok, args_ok, s.
    cbn [sl_id sl_stage sl_version sl_blockVersion sl_numParticipants sl_ttl sl_kernelFeatures sl_featureArgs sl_offset sl_amount sl_fee sl_sigs sl_commitments sl_proof].
    split; [repeat split; try reflexivity; discriminate|]. split; [reflexivity|]. split; [|split; [constructor | split; [cbn; lia | cbn; lia]]].
    constructor; [|constructor]. split; [reflexivity|]. split; [reflexivity|]. exists sig. auto. }
  assert (LB : N.of_nat (length bs) < 1000 /\ is_bytes bs).
  { assert (E2 : exists x y, bs = x ++ sig ++ y /\ N.of_nat (length x) < 400 /\ N.of_nat (length y) < 400 /\ is_bytes x /\ is_bytes y).
    { assert (E3 : Slate_Serialize (fun _ => Some sig) s = Ret (firstn (N.to_nat 138) (match Slate_Serialize (fun _ => Some []) s with Ret r => r | _ => [] end) ++ (sig ++ []) ++ [0])).
      { vm_compute. reflexivity. }
      rewrite E3, app_nil_r in E. apply (f_equal (fun o => match o with Ret r => r | _ => [] end)) in E. rewrite <- E. eexists. eexists. split; [reflexivity|].
      split; [vm_compute; reflexivity|]. split; [reflexivity|]. split; apply all_below; vm_compute; reflexivity. }
    destruct E2 as (x & y & -> & L1 & L2 & B1 & B2). split; [rewrite !app_length, L; lia|].
    repeat (apply Forall_app; split); assumption. }
  destruct LB as [LB BB]. exists bs, s. specialize (D [] []). rewrite app_nil_r in D. cbn [app length] in D.
  eexists. split; [exact BB|]. split; [apply D; lia|]. unfold Slate_Serialize, s. cbn [sl_sigs serialize_all].
  unfold Sig_Serialize. cbn [sg_partial]. unfold ParseCompactSignature. rewrite P. reflexivity.
Qed.
Example C51_refused_case : exists (parse : bytes -> option bytes) (compact : bytes -> bytes) sig,
  length sig = 64%nat /\ is_bytes sig /\ parse (compact sig) = None.
Proof.
  exists (fun p => if be_value (firstn 32 p) <? 2 ^ 255 then Some p else None), (fun s => s), (repeat 255 64).
  split; [reflexivity|]. split; [apply all_below; vm_compute; reflexivity | vm_compute; reflexivity].
Qed.

(** JSON: a slate with a plain kernel, a fee without priority and full-size proofs reads back identical. *)
Theorem C51_json_round_trip_partial s : json_ok s -> obind (Slate_ToJSON s) Slate_FromJSON = Ret s.
Proof. exact (json_round_trip s). Qed.

(** Missing: every other kernel. Whatever JSON is read, the slate has no feature arguments; a
    height-locked slate loses its lock height, and can then not be written as JSON any more. *)
Theorem C51_json_feature_args_refuted s j s' : sl_kernelFeatures s < 256 -> sl_kernelFeatures s <> 0 ->
  Slate_ToJSON s = Ret j -> Slate_FromJSON j = Ret s' ->
  GetLockHeight s' = 0 /\ sl_kernelFeatures s' = sl_kernelFeatures s /\ s' <> s /\ Slate_ToJSON s' = Throw.
Proof.
  intros K1 K2 E1 E2. apply N.eqb_neq in K2. unfold Slate_ToJSON in E1.
  destruct (if Fee_eqb (sl_fee s) (mkFee 0 0) then Ret None else omap Some (Fee_ToJSON (sl_fee s))) as [fee| |]; try discriminate.
  cbn [obind] in E1. unfold DEFAULT_KERNEL in E1. rewrite K2 in E1.
  destruct (sl_featureArgs s) as [a|] eqn:A; try discriminate. cbn [obind fst snd] in E1. injection E1 as <-.
  unfold Slate_FromJSON in E2. cbn [js_ver js_id js_sta js_off js_num_parts js_fee js_amt js_feat js_feat_args js_ttl js_sigs js_coms js_proof fst snd getN] in E2.
  match type of E2 with obind ?x _ = _ => destruct x; try discriminate end. cbn [obind] in E2.
  match type of E2 with obind ?x _ = _ => destruct x; try discriminate end. cbn [obind] in E2.
  match type of E2 with obind ?x _ = _ => destruct x; try discriminate end. cbn [obind] in E2.
  match type of E2 with obind ?x _ = _ => destruct x; try discriminate end. cbn [obind] in E2.
  injection E2 as <-. unfold GetLockHeight, Slate_ToJSON. cbn [sl_featureArgs sl_kernelFeatures sl_fee].
  rewrite (N.mod_small (sl_kernelFeatures s)) by exact K1. unfold DEFAULT_KERNEL. rewrite K2.
  split; [reflexivity|]. split; [reflexivity|]. split.
  - intros EQ. rewrite <- EQ in A. discriminate A.
  - match goal with |- obind (if ?c then _ else ?o) _ = _ => destruct c; [reflexivity|] end.
    unfold Fee_ToJSON. match goal with |- obind (omap Some (omap fst ?o)) _ = _ => destruct o eqn:RE; try reflexivity end.
    exfalso. revert RE. unfold Fee_Serialize. clear. intros RE.
    match type of RE with ReadU64 ?b = _ => pose proof (safe_be 8 ltac:(lia) b) as SF end.
    unfold ReadU64 in RE. rewrite RE in SF. apply SF.
    + unfold good_buffer. cbn [m_index m_bytes]. rewrite !app_length, !Append_length. split; vm_compute; [discriminate | reflexivity].
    + cbn [m_bytes]. do 3 (apply Forall_app; split; [apply Append_bytes|]). apply Append_bytes.
Qed.
Definition locked_slate : slate :=
  mkSlate (repeat 7 16) S1 4 5 2 0 2 (Some (mkArgs (Some 1000000))) (repeat 1 32) 5000 (mkFee 0 8000000)
    [mkSSig (repeat 2 33) (repeat 3 33) (Some (repeat 4 64))] [mkSCom 0 (repeat 5 33) None; mkSCom 1 (repeat 6 33) (Some (repeat 9 675))]
    (Some (mkSProof (repeat 1 32) (repeat 2 32) None)).
Example C51_locked_case : slate_ok (fun p => Some p) (fun s => s) locked_slate /\ GetLockHeight locked_slate = 1000000 /\
  exists j s', Slate_ToJSON locked_slate = Ret j /\ Slate_FromJSON j = Ret s' /\ Slate_ToJSON s' = Throw.
Proof.
  split; [|split; [reflexivity|]].
  - unfold slate_ok, common_ok, args_ok, locked_slate, fee_ok.
    cbn [sl_id sl_stage sl_version sl_blockVersion sl_numParticipants sl_ttl sl_kernelFeatures sl_featureArgs sl_offset sl_amount sl_fee sl_sigs sl_commitments sl_proof m_shift m_fee fa_lockHeight].
    split; [repeat split; try reflexivity; discriminate|]. split; [repeat split; try reflexivity; discriminate|].
    split; [constructor; [|constructor]; split; [reflexivity|]; split; [reflexivity|]; exists (repeat 4 64); repeat split|].
    split; [|split; cbn; lia]. repeat constructor. all: apply Nat.leb_le; vm_compute; reflexivity.
  - eexists. eexists. split; [vm_compute; reflexivity|]. split; vm_compute; reflexivity.
Qed.

(** Comparing two slates compares everything except the block version and the feature arguments (and
    fails on slates with block version 0, even against themselves). *)
Theorem C51_equality_partial a b : slate_eqb a b = true <->
  same_but_version_and_args a b /\ sl_blockVersion a <> 0 /\ sl_blockVersion b <> 0.
Proof. exact (slate_eqb_spec a b). Qed.
Theorem C51_equality_refuted : exists a b, slate_ok (fun p => Some p) (fun s => s) a /\ slate_ok (fun p => Some p) (fun s => s) b /\
  slate_eqb a b = true /\ sl_blockVersion a <> sl_blockVersion b /\ GetLockHeight a <> GetLockHeight b.
Proof.
  exists (mkSlate (repeat 7 16) S1 4 5 2 0 2 (Some (mkArgs (Some 10))) (repeat 1 32) 5000 (mkFee 0 8000000) [] [] None),
    (mkSlate (repeat 7 16) S1 4 4 2 0 2 (Some (mkArgs (Some 99))) (repeat 1 32) 5000 (mkFee 0 8000000) [] [] None).
  unfold slate_ok, common_ok, args_ok, fee_ok.
  cbn [sl_id sl_stage sl_version sl_blockVersion sl_numParticipants sl_ttl sl_kernelFeatures sl_featureArgs sl_offset sl_amount sl_fee sl_sigs sl_commitments sl_proof length m_shift m_fee fa_lockHeight].
  split; [repeat split; try constructor; try discriminate; cbn; lia|]. split; [repeat split; try constructor; try discriminate; cbn; lia|].
  split; [vm_compute; reflexivity|]. split; [discriminate | vm_compute; discriminate].
Qed.

(** Loading the latest slate: it is one of the stored ones that can be decrypted and read, no other
    such has a later stage, and it is the last stored among those; its armored text comes with it. None
    is returned only when no stored one can be read. *)
Theorem C51_latest rows :
  (fst (LoadLatestSlate rows) = None -> forall r, In r rows -> r_slate r = None) /\
  (forall s, fst (LoadLatestSlate rows) = Some s -> exists pre r post, rows = pre ++ r :: post /\ r_slate r = Some s /\
     snd (LoadLatestSlate rows) = match r_armored r with Some a => a | None => [] end /\
     (forall x, In x rows -> r_slate x <> None -> Stage_ToByte (r_stage x) <= Stage_ToByte (r_stage r)) /\
     (forall x, In x post -> r_slate x <> None -> Stage_ToByte (r_stage x) < Stage_ToByte (r_stage r))).
Proof.
  pose proof (latest_spec rows) as (H1 & H2 & _). unfold LoadLatestSlate. split; [exact H1|]. intros s E.
  destruct (H2 s E) as (pre & r & post & R1 & R2 & _ & R3 & R4 & R5). exists pre, r, post. auto.
Qed.

(** Loading the armored text alone: the text of the last row that has one, whatever its stage. *)
Theorem C51_armored_partial rows : LoadArmoredSlatepack rows =
  match rev (filter (fun r => match r_armored r with Some _ => true | None => false end) rows) with
  | r :: _ => match r_armored r with Some a => a | None => [] end
  | [] => []
  end.
Proof. exact (armored_last rows []). Qed.
(** So it is not the text of the latest stage when the rows come in another order. *)
Theorem C51_armored_refuted : exists rows a r, r_armored r = Some a /\ In r rows /\
  (forall x, In x rows -> Stage_ToByte (r_stage x) <= Stage_ToByte (r_stage r)) /\
  (forall x, In x rows -> r_stage x = r_stage r -> x = r) /\ LoadArmoredSlatepack rows <> a.
Proof.
  exists [mkRow S2 (Some locked_slate) (Some [66]); mkRow S1 (Some locked_slate) (Some [65])], [66], (mkRow S2 (Some locked_slate) (Some [66])).
  split; [reflexivity|]. split; [left; reflexivity|]. split.
  - intros x [<-|[<-|[]]]; cbn; lia.
  - split; [|discriminate]. intros x [<-|[<-|[]]]; [reflexivity | discriminate].
Qed.
Example C51_latest_case : LoadLatestSlate [mkRow S1 (Some locked_slate) (Some [65]); mkRow S3 None (Some [67]); mkRow S2 (Some many_sigs) None] = (Some many_sigs, []).
Proof. reflexivity. Qed.

Definition slate_codec_theorems := (@C51_binary_round_trip, @C51_binary_distinct, @C51_stays_inside, @C51_counts, @C51_too_many_refuted,
  @C51_refused_signature_refuted, @C51_json_round_trip_partial, @C51_json_feature_args_refuted, @C51_equality_partial, @C51_equality_refuted,
  @C51_latest, @C51_armored_partial, @C51_armored_refuted).
Print Assumptions slate_codec_theorems.
