(** Proofs about the JSON form of transactions. *)
From Coq Require Import Ascii String.
From Verif Require Import Base Bytes FileModel TextModel TextSpec TextProofs TextCheck CodecModel CodecSpec CodecProofs QueryModel TxJsonModel TxJsonSpec.
Local Open Scope N_scope.
Local Open Scope list_scope.

Lemma get_here k v r : get ((k, v) :: r) k = v.
Proof. cbn [get]. assert (E : bytes_eqb k k = true) by (apply bytes_eqb_spec; reflexivity). rewrite E. reflexivity. Qed.
Lemma get_skip k v r key : bytes_eqb k key = false -> get ((k, v) :: r) key = get r key.
Proof. intros E. cbn [get]. rewrite E. reflexivity. Qed.
Lemma get_nil k : get [] k = JNull.
Proof. reflexivity. Qed.
Ltac look := unfold GetRequiredField, GetOptionalField; repeat (rewrite get_here || (rewrite get_skip by reflexivity)); rewrite ?get_nil; cbn [isNull obind omap].
Lemma vector_back d n : is_bytes d -> nlen d = n -> ConvertToVector (ConvertToJSON d) n = Ret d.
Proof. intros B L. unfold ConvertToVector, ConvertToJSON, asString. cbn [obind]. rewrite hex_roundtrip by exact B. cbn [obind]. rewrite L, N.eqb_refl. reflexivity. Qed.
Lemma vector_size d n d' : is_bytes d -> ConvertToVector (ConvertToJSON d) n = Ret d' -> nlen d = n.
Proof.
  intros B. unfold ConvertToVector, ConvertToJSON, asString. cbn [obind]. rewrite hex_roundtrip by exact B. cbn [obind].
  destruct (N.eqb_spec (nlen d) n); [auto|discriminate].
Qed.
Lemma features_back f : f < 2 -> OutputFeatures_FromString (OutputFeatures_ToString f) = Ret f.
Proof. intros H. assert (C : f = 0 \/ f = 1) by lia. destruct C as [->| ->]; reflexivity. Qed.
Lemma nlen_nat (d : bytes) n : length d = n -> nlen d = N.of_nat n.
Proof. intros <-. reflexivity. Qed.
Lemma input_back i : input_postable i -> Input_FromJSON (Input_ToJSON i) = Ret i.
Proof.
  intros (F & B & L). unfold Input_FromJSON, Input_ToJSON, GetVector. look. change (isNull (ConvertToJSON (i_commitment i))) with false. cbn [asString obind].
  rewrite features_back by exact F. cbn [obind]. rewrite vector_back by (auto; apply (nlen_nat _ 33 L)). destruct i; reflexivity.
Qed.
Lemma output_back o : output_postable o -> Output_FromJSON (Output_ToJSON o) = Ret o.
Proof.
  intros (F & B & L & B2 & L2). unfold Output_FromJSON, Output_ToJSON, GetVector. look.
  change (isNull (ConvertToJSON (o_commitment o))) with false. change (isNull (ConvertToJSON (o_rangeProof o))) with false. cbn [asString obind].
  rewrite features_back by exact F. cbn [obind]. rewrite vector_back by (auto; apply (nlen_nat _ 33 L)). cbn [obind]. rewrite vector_back by auto. destruct o; reflexivity.
Qed.
Lemma output_size o o' : is_bytes (o_rangeProof o) -> Output_FromJSON (Output_ToJSON o) = Ret o' -> nlen (o_rangeProof o) = 675.
Proof.
  intros B. unfold Output_FromJSON, Output_ToJSON, GetVector. look.
  change (isNull (ConvertToJSON (o_commitment o))) with false. change (isNull (ConvertToJSON (o_rangeProof o))) with false. cbn [asString obind].
  destruct (OutputFeatures_FromString _); cbn [obind]; try discriminate. destruct (ConvertToVector (ConvertToJSON (o_commitment o)) 33); cbn [obind]; try discriminate.
  destruct (ConvertToVector (ConvertToJSON (o_rangeProof o)) MAX_PROOF_SIZE) eqn:E; cbn [obind]; try discriminate. intros _. exact (vector_size _ _ _ B E).
Qed.

Section K.
Variable compact : bytes -> bytes.
Variable parse_compact : bytes -> option bytes.
Notation signed k := (is_bytes (compact (k_excessSignature k)) /\ nlen (compact (k_excessSignature k)) = 64 /\ parse_compact (compact (k_excessSignature k)) = Some (k_excessSignature k)).
(** What is read back from a kernel with a fee. *)
Lemma kernel_reads k x : k_features k <> 1 -> k_features k < 4 -> k_lockHeight k < 2 ^ 64 -> Fee_ToJSON (k_fee k) = Ret x -> x < 2 ^ 64 ->
  is_bytes (k_excessCommitment k) -> nlen (k_excessCommitment k) = 33 -> signed k ->
  exists j, Kernel_ToJSON compact k = Ret j /\ Kernel_FromJSON parse_compact j =
    if k_features k =? 3 then Throw else Ret (mkKernel (k_features k) (mkFee 0 x) (if k_features k =? 2 then k_lockHeight k else 0) (k_excessCommitment k) (k_excessSignature k)).
Proof.
  intros N1 F4 LH FE X B L (SB & SL & SP). unfold Kernel_ToJSON. apply N.eqb_neq in N1 as N1'. unfold COINBASE_KERNEL. rewrite N1'. cbn [negb]. rewrite FE. cbn [obind].
  eexists. split; [reflexivity|].
  assert (U : forall n, n < 2 ^ 64 -> ConvertToUInt64 (JNum (Z.of_N n)) = Ret n).
  { intros n Hn. unfold ConvertToUInt64. assert (A : ((0 <=? Z.of_N n) && (Z.of_N n <? 2 ^ 64))%Z%bool = true).
    { apply andb_true_intro. split; [apply Z.leb_le; lia|]. apply Z.ltb_lt. change (2 ^ 64)%Z with (Z.of_N (2 ^ 64)). lia. }
    rewrite A, N2Z.id. reflexivity. }
  assert (C : k_features k = 0 \/ k_features k = 2 \/ k_features k = 3) by lia.
  unfold Kernel_FromJSON, GetUInt64Or0, GetVector, HEIGHT_LOCKED, NO_RECENT_DUPLICATE.
  destruct C as [E|[E|E]]; rewrite E; cbv zeta; (match goal with |- context [if ?a =? 2 then ?x else ?y] => let v := eval vm_compute in (a =? 2) in change (a =? 2) with v end); cbv iota; cbn [app]; look;
    (match goal with |- context [KernelFeatures_FromString (KernelFeatures_ToString ?n)] => change (KernelFeatures_FromString (KernelFeatures_ToString n)) with (Ret n) end);
    cbn [obind]; look; rewrite (U x X); cbn [omap obind]; look; rewrite ?(U _ LH); cbn [omap obind]; look;
    change (isNull (ConvertToJSON (k_excessCommitment k))) with false; change (isNull (ConvertToJSON (compact (k_excessSignature k)))) with false; cbn [obind];
    rewrite (vector_back _ _ B L); cbn [obind]; rewrite (vector_back _ _ SB SL); cbn [obind]; rewrite SP; reflexivity.
Qed.
Lemma kernel_back k : kernel_postable compact parse_compact k -> exists j, Kernel_ToJSON compact k = Ret j /\ Kernel_FromJSON parse_compact j = Ret k.
Proof.
  intros (F & Sh & Fe & B & L & SB & SL & SP). destruct (kernel_reads k (m_fee (k_fee k))) as (j & J & R).
  - destruct F as [[-> _]|[-> _]]; discriminate.
  - destruct F as [[-> _]|[-> _]]; reflexivity.
  - destruct F as [[_ ->]|[_ H]]; [reflexivity|exact H].
  - rewrite fee_json_value by (auto; lia). rewrite Sh, N.mul_0_l. reflexivity.
  - assert (2 ^ 40 < 2 ^ 64) by reflexivity. lia.
  - exact B.
  - exact (nlen_nat _ 33 L).
  - split; [exact SB|]. split; [exact (nlen_nat _ 64 SL)|exact SP].
  - exists j. split; [exact J|]. rewrite R. destruct k as [f [sh fe] lh c s]. cbn [k_features k_fee m_shift m_fee k_lockHeight k_excessCommitment k_excessSignature] in *. subst sh.
    destruct F as [[-> ->]|[-> _]]; reflexivity.
Qed.
(** A coinbase kernel is written with no attributes and cannot be read. *)
Lemma coinbase_reads k : k_features k = 1 -> exists j, Kernel_ToJSON compact k = Ret j /\ Kernel_FromJSON parse_compact j = Throw.
Proof. intros E. unfold Kernel_ToJSON. rewrite E. cbn [negb COINBASE_KERNEL N.eqb Pos.eqb obind]. eexists. split; [reflexivity|]. reflexivity. Qed.

Lemma read_all_map {A B} (f : A -> json) (g : json -> outcome B) (h : A -> B) l : Forall (fun x => g (f x) = Ret (h x)) l -> read_all g (map f l) = Ret (map h l).
Proof. induction 1 as [|x l E _ IH]; [reflexivity|]. cbn [map read_all]. rewrite E. cbn [obind]. rewrite IH. reflexivity. Qed.
Lemma read_all_in {A} (g : json -> outcome A) l r j : read_all g l = Ret r -> In j l -> exists x, g j = Ret x.
Proof.
  revert r. induction l as [|y l IH]; intros r; [intros _ []|]. cbn [read_all]. destruct (g y) as [x| |] eqn:E; cbn [obind]; try discriminate.
  destruct (read_all g l) as [r'| |] eqn:E2; cbn [obind]; try discriminate. intros _ [<-|I]; [eauto|]. eapply IH; [reflexivity|exact I].
Qed.
Lemma kernels_back l : Forall (kernel_postable compact parse_compact) l -> exists js, kernels_json compact l = Ret js /\ read_all (Kernel_FromJSON parse_compact) js = Ret l /\ length js = length l.
Proof.
  induction 1 as [|k l P _ (js & J & R & L)]; [exists []; repeat split|]. destruct (kernel_back k P) as (j & J1 & R1). exists (j :: js). cbn [kernels_json read_all].
  rewrite J1. cbn [obind]. rewrite J. cbn [obind]. rewrite R1. cbn [obind]. rewrite R. cbn [obind length]. auto.
Qed.
Lemma kernels_in l js k j : kernels_json compact l = Ret js -> In k l -> Kernel_ToJSON compact k = Ret j -> In j js.
Proof.
  revert js. induction l as [|x l IH]; intros js; [intros _ []|]. cbn [kernels_json]. destruct (Kernel_ToJSON compact x) as [y| |] eqn:E; cbn [obind]; try discriminate.
  destruct (kernels_json compact l) as [r| |] eqn:E2; cbn [obind]; try discriminate. intros [= <-] [<-|I] H; [left; congruence|]. right. exact (IH _ eq_refl I H).
Qed.
Lemma list_elements l : l <> [] -> elements (list_json l) = Ret l /\ isNull (list_json l) = false.
Proof. destruct l; [contradiction|]. intros _. split; reflexivity. Qed.
Lemma map_nil {A B} (f : A -> B) l : l <> [] -> map f l <> [].
Proof. destruct l; [contradiction|discriminate]. Qed.

Variable Blake2b : bytes -> bytes.
Notation ToJSON := (Transaction_ToJSON compact).
Notation FromJSON := (Transaction_FromJSON Blake2b parse_compact).
Lemma tx_back t : postable Blake2b compact parse_compact t -> exists fields, ToJSON t = Ret (JObj fields) /\ FromJSON (JObj fields) = Ret t.
Proof.
  intros (B & L & I & O & K & I0 & O0 & K0 & IS & OS & KS). destruct (kernels_back _ K) as (js & J & R & Ln).
  unfold Transaction_ToJSON, Body_ToJSON. rewrite J. cbn [obind]. eexists. split; [reflexivity|].
  assert (Js : js <> []) by (destruct js; [destruct (b_kernels (t_body t)); [contradiction|discriminate]|discriminate]).
  unfold Transaction_FromJSON, Body_FromJSON. look.
  change (isNull (ConvertToJSON (t_offset t))) with false. cbn [obind]. rewrite vector_back by (auto; apply (nlen_nat _ 32 L)). cbn [obind isNull].
  destruct (list_elements (map Input_ToJSON (b_inputs (t_body t))) (map_nil _ _ I0)) as [E1 E2]. look. rewrite E2. cbn [obind]. rewrite E1. cbn [obind].
  rewrite (read_all_map _ _ (fun x => x)) by (eapply Forall_impl; [|exact I]; exact input_back). cbn [obind].
  destruct (list_elements (map Output_ToJSON (b_outputs (t_body t))) (map_nil _ _ O0)) as [E3 E4]. look. rewrite E4. cbn [obind]. rewrite E3. cbn [obind].
  rewrite (read_all_map _ _ (fun x => x)) by (eapply Forall_impl; [|exact O]; exact output_back). cbn [obind].
  destruct (list_elements js Js) as [E5 E6]. look. rewrite E6. cbn [obind]. rewrite E5. cbn [obind]. rewrite R. cbn [obind]. rewrite !map_id. unfold Body_sorted.
  rewrite !(sort_sorted (input_hash Blake2b)), !(sort_sorted (output_hash Blake2b)), !(sort_sorted (kernel_hash Blake2b)) by (rewrite ?sort_sorted; assumption).
  destruct t as [o [a b c]]; reflexivity.
Qed.
(** What a transaction that is read back has. *)
Lemma tx_read t j t' : ToJSON t = Ret j -> FromJSON j = Ret t' ->
  b_inputs (t_body t) <> [] /\ b_outputs (t_body t) <> [] /\ b_kernels (t_body t) <> [] /\
  (forall o, In o (b_outputs (t_body t)) -> exists o', Output_FromJSON (Output_ToJSON o) = Ret o') /\
  (forall k x, In k (b_kernels (t_body t)) -> Kernel_ToJSON compact k = Ret x -> exists k', Kernel_FromJSON parse_compact x = Ret k').
Proof.
  unfold Transaction_ToJSON, Body_ToJSON. destruct (kernels_json compact (b_kernels (t_body t))) as [js| |] eqn:J; cbn [obind]; try discriminate. intros [= <-].
  unfold Transaction_FromJSON, Body_FromJSON. look.
  change (isNull (ConvertToJSON (t_offset t))) with false. cbn [obind]. destruct (ConvertToVector _ 32); cbn [obind isNull]; try discriminate. look.
  destruct (b_inputs (t_body t)) as [|i il]; [cbn; discriminate|]. cbn [list_json map isNull obind elements]. destruct (read_all Input_FromJSON _); cbn [obind]; try discriminate.
  look. destruct (b_outputs (t_body t)) as [|o ol] eqn:EO; [cbn; discriminate|]. cbn [list_json map isNull obind elements].
  destruct (read_all Output_FromJSON _) as [os| |] eqn:RO; cbn [obind]; try discriminate.
  look. destruct js as [|j js]; [cbn; discriminate|]. cbn [list_json isNull obind elements]. destruct (read_all (Kernel_FromJSON _) _) as [ks| |] eqn:RK; cbn [obind]; try discriminate.
  intros _. split; [discriminate|]. split; [discriminate|]. split; [destruct (b_kernels (t_body t)); [discriminate J|discriminate]|]. split.
  - intros o' Io. eapply read_all_in; [exact RO|]. apply (in_map Output_ToJSON (o :: ol)). exact Io.
  - intros k x Ik Jk. eapply read_all_in; [exact RK|]. eapply kernels_in; [exact J|exact Ik|exact Jk].
Qed.
End K.
