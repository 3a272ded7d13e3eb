(** C67: a transaction handed to a node through the API arrives as it was built and goes where the caller says. *)
From Coq Require Import Ascii String.
From Verif Require Import Base Bytes FileModel TextModel TextSpec SerialProofs CodecModel CodecSpec CodecProofs QueryModel TxJsonModel TxJsonSpec TxJsonProofs.
Local Open Scope N_scope.
Local Open Scope list_scope.

Section TX.
Variable Blake2b : bytes -> bytes.
Variable compact : bytes -> bytes.
Variable parse_compact : bytes -> option bytes.
Variable validate : Transaction -> bool.
Variable add : Transaction -> bool -> bool.
Notation ToJSON := (Transaction_ToJSON compact).
Notation FromJSON := (Transaction_FromJSON Blake2b parse_compact).
Notation Push := (PushTransaction Blake2b parse_compact validate add).
Notation Post := (PostParams compact).

(** Written as JSON and read, a transaction is the same; missing: the kinds of transactions named below, which cannot be read. *)
Theorem C67_round_trip_partial t : postable Blake2b compact parse_compact t -> exists j, ToJSON t = Ret j /\ FromJSON j = Ret t.
Proof. intros P. destruct (tx_back _ _ _ t P) as (f & A & B). eauto. Qed.
(** A wallet that posts a valid one: the node hands exactly this transaction to its pools once, to the one asked for, and says so if and only if it was added. *)
Theorem C67_posted_partial t fluff : postable Blake2b compact parse_compact t -> validate t = true -> exists params, Post t fluff = Ret params /\
  exists reply announced, Push (Some params) = (reply, AddedToPool t fluff (add t fluff) :: announced) /\
    (reply = AnsweredOk <-> add t fluff = true) /\ (add t fluff = false -> announced = []) /\
    (add t true = true -> fluff = true -> announced = map (fun k => Announced (kernel_hash Blake2b k)) (b_kernels (t_body t))).
Proof.
  intros P V. destruct (tx_back _ _ _ t P) as (f & A & B). unfold PostParams. rewrite A. cbn [obind]. eexists. split; [reflexivity|].
  unfold PushTransaction. cbn [isNull]. rewrite B. cbn [asBool]. rewrite V. cbn [negb]. destruct (add t fluff) eqn:E.
  - eexists _, _. split; [reflexivity|]. split; [split; reflexivity|]. split; [discriminate|]. intros _ _. reflexivity.
  - eexists _, _. split; [reflexivity|]. split; [split; discriminate|]. split; [reflexivity|]. intros H ->. congruence.
Qed.
(** Whatever is sent: at most one transaction is handed to the pools, the one that was sent if it is valid, and to the pool asked for; success is answered if and only if it was added; and nothing is announced
    but kernels of a transaction that was added. *)
Theorem C67_push_safe params :
  (forall t fluff success, In (AddedToPool t fluff success) (snd (Push params)) -> validate t = true /\ success = add t fluff /\
     exists j rest, params = Some (JArr (j :: rest)) /\ FromJSON j = Ret t /\ (fluff = true <-> asks_fluff rest)) /\
  (length (filter (fun e => match e with AddedToPool _ _ _ => true | Announced _ => false end) (snd (Push params))) <= 1)%nat /\
  (fst (Push params) = AnsweredOk <-> exists t fluff, In (AddedToPool t fluff true) (snd (Push params))) /\
  (forall h, In (Announced h) (snd (Push params)) -> exists t fluff k, In (AddedToPool t fluff true) (snd (Push params)) /\ In k (b_kernels (t_body t)) /\ h = kernel_hash Blake2b k).
Proof.
  assert (Nothing : forall r, r <> AnsweredOk ->
    (forall t fluff success, In (AddedToPool t fluff success) (snd (r, @nil Effect)) -> validate t = true /\ success = add t fluff /\ exists j rest, params = Some (JArr (j :: rest)) /\ FromJSON j = Ret t /\ (fluff = true <-> asks_fluff rest)) /\
    (length (filter (fun e => match e with AddedToPool _ _ _ => true | Announced _ => false end) (snd (r, @nil Effect))) <= 1)%nat /\
    (fst (r, @nil Effect) = AnsweredOk <-> exists t fluff, In (AddedToPool t fluff true) (snd (r, @nil Effect))) /\
    (forall h, In (Announced h) (snd (r, @nil Effect)) -> exists t fluff k, In (AddedToPool t fluff true) (snd (r, @nil Effect)) /\ In k (b_kernels (t_body t)) /\ h = kernel_hash Blake2b k)).
  { intros r R. cbn. split; [intros ? ? ? []|]. split; [lia|]. split; [split; [contradiction|intros (? & ? & [])]|intros ? []]. }
  unfold PushTransaction. destruct params as [p|]; [|apply Nothing; discriminate]. destruct p as [| | | |l|]; try (apply Nothing; discriminate). destruct l as [|p0 rest]; [apply Nothing; discriminate|].
  destruct (isNull p0); [apply Nothing; discriminate|]. destruct (FromJSON p0) as [t| |] eqn:E; [|apply Nothing; discriminate|apply Nothing; discriminate].
  match goal with |- context [match ?m with Ret fluff => _ | _ => _ end] => destruct m as [fluff| |] eqn:FL end; [|apply Nothing; discriminate|apply Nothing; discriminate].
  assert (AF : fluff = true <-> asks_fluff rest).
  { unfold asks_fluff. destruct rest as [|p1 more]; [injection FL as <-; split; [discriminate|intros (? & ? & [=] & _)]|].
    destruct p1 as [|b|z|s|l|f]; cbn [isNull asBool] in FL; try discriminate; injection FL as <-; split; intros H.
    - discriminate.
    - destruct H as (? & ? & [= <- <-] & [[=]|(? & [=] & _)]).
    - subst b. exists (JBool true), more. auto.
    - destruct H as (? & ? & [= <- <-] & [[= ->]|(? & [=] & _)]). reflexivity.
    - exists (JNum z), more. split; [reflexivity|]. right. exists z. split; [reflexivity|]. destruct (Z.eqb_spec z 0); [discriminate|assumption].
    - destruct H as (? & ? & [= <- <-] & [[=]|(? & [= <-] & H)]). apply Z.eqb_neq in H. rewrite H. reflexivity. }
  destruct (validate t) eqn:V; cbn [negb]; [|apply Nothing; discriminate].
  assert (NB : forall x y z l, ~ In (AddedToPool x y z) (map (fun k => Announced (kernel_hash Blake2b k)) l)) by (intros x y z l I; apply in_map_iff in I; destruct I as (? & [=] & _)).
  destruct (add t fluff) eqn:A; cbn [fst snd].
  - split. { intros t' f' s' [[= <- <- <-]|I]; [|exfalso; exact (NB _ _ _ _ I)]. split; [exact V|]. split; [congruence|]. eauto. }
    split. { cbn [filter length]. unfold BroadcastTransaction. assert (Z : forall l, filter (fun e => match e with AddedToPool _ _ _ => true | Announced _ => false end) (map (fun k => Announced (kernel_hash Blake2b k)) l) = []) by (induction l; auto). rewrite Z. cbn. lia. }
    split. { split; [intros _; exists t, fluff; left; reflexivity|reflexivity]. }
    intros h [[=]|I]. apply in_map_iff in I. destruct I as (k & [= <-] & I). exists t, fluff, k. split; [left; reflexivity|]. split; [exact I|reflexivity].
  - split. { intros t' f' s' [[= <- <- <-]|[]]. split; [exact V|]. split; [congruence|]. eauto. }
    split; [cbn; lia|]. split. { split; [discriminate|]. intros (? & ? & [[=]|[]]). }
    intros h [[=]|[]].
Qed.
(** A transaction that is to be kept private (no fluff) is announced to every peer all the same. *)
Theorem C67_stem_announced_refuted t k : postable Blake2b compact parse_compact t -> validate t = true -> add t false = true -> In k (b_kernels (t_body t)) ->
  exists params, Post t false = Ret params /\ In (AddedToPool t false true) (snd (Push (Some params))) /\ In (Announced (kernel_hash Blake2b k)) (snd (Push (Some params))).
Proof.
  intros P V A I. destruct (tx_back _ _ _ t P) as (f & J & B). unfold PostParams. rewrite J. cbn [obind]. eexists. split; [reflexivity|].
  unfold PushTransaction. cbn [isNull]. rewrite B. cbn [asBool]. rewrite V. cbn [negb]. rewrite A. cbn [snd]. split; [left; reflexivity|]. right.
  unfold BroadcastTransaction. apply in_map_iff. exists k. split; [reflexivity|exact I].
Qed.

(** No transaction with a kernel of the kind NoRecentDuplicate, or of the kind Coinbase, can be posted: what is written cannot be read. *)
Theorem C67_other_kernels_refuted t k : In k (b_kernels (t_body t)) -> kernel_ok 2 k -> is_bytes (k_excessCommitment k) ->
  is_bytes (compact (k_excessSignature k)) -> nlen (compact (k_excessSignature k)) = 64 -> parse_compact (compact (k_excessSignature k)) = Some (k_excessSignature k) ->
  k_features k = 3 \/ k_features k = 1 -> forall j t', ToJSON t = Ret j -> FromJSON j <> Ret t'.
Proof.
  intros I (L & _ & (F1 & F2) & LH & F4 & _) B SB SL SP K j t' J R. destruct (tx_read _ _ _ _ _ _ J R) as (_ & _ & _ & _ & X).
  destruct K as [K|K].
  - destruct (kernel_reads compact parse_compact k (m_shift (k_fee k) * 2 ^ 40 + m_fee (k_fee k))) as (x & Jx & Rx).
    + rewrite K. discriminate.
    + exact F4.
    + exact LH.
    + apply fee_json_value; assumption.
    + change (2 ^ 64) with 18446744073709551616. change (2 ^ 40) with 1099511627776 in *. lia.
    + exact B.
    + exact (nlen_nat _ 33 L).
    + auto.
    + destruct (X k x I Jx) as (k' & E). rewrite Rx, K in E. discriminate.
  - destruct (coinbase_reads compact parse_compact k K) as (x & Jx & Rx). destruct (X k x I Jx) as (k' & E). rewrite Rx in E. discriminate.
Qed.
(** Nor one without inputs or outputs (an empty list is written as null), or with a range proof shorter than 675 bytes. *)
Theorem C67_empty_refuted t : b_inputs (t_body t) = [] \/ b_outputs (t_body t) = [] \/ (exists o, In o (b_outputs (t_body t)) /\ output_ok o /\ is_bytes (o_rangeProof o) /\ nlen (o_rangeProof o) < 675) ->
  forall j t', ToJSON t = Ret j -> FromJSON j <> Ret t'.
Proof.
  intros H j t' J R. destruct (tx_read _ _ _ _ _ _ J R) as (A & B & _ & X & _). destruct H as [H|[H|(o & I & _ & Bo & L)]]; [contradiction|contradiction|].
  destruct (X o I) as (o' & E). apply output_size in E; [lia|exact Bo].
Qed.
(** A kernel with a fee shift is read back as another kernel, for which another message must have been signed. *)
Theorem C67_fee_shift_refuted k : (k_features k = 0 \/ k_features k = 2) -> 0 < m_shift (k_fee k) < 16 -> m_fee (k_fee k) < 2 ^ 40 -> k_lockHeight k < 2 ^ 64 ->
  is_bytes (k_excessCommitment k) -> nlen (k_excessCommitment k) = 33 ->
  is_bytes (compact (k_excessSignature k)) -> nlen (compact (k_excessSignature k)) = 64 -> parse_compact (compact (k_excessSignature k)) = Some (k_excessSignature k) ->
  exists j k', Kernel_ToJSON compact k = Ret j /\ Kernel_FromJSON parse_compact j = Ret k' /\
    SignatureMessage (k_features k') (k_fee k') (k_lockHeight k') <> SignatureMessage (k_features k) (k_fee k) (k_lockHeight k).
Proof.
  intros K S F LH B L SB SL SP. destruct (kernel_reads compact parse_compact k (m_shift (k_fee k) * 2 ^ 40 + m_fee (k_fee k))) as (x & Jx & Rx).
  - destruct K as [->| ->]; discriminate.
  - destruct K as [->| ->]; reflexivity.
  - exact LH.
  - apply fee_json_value; [lia|assumption].
  - change (2 ^ 64) with 18446744073709551616. change (2 ^ 40) with 1099511627776 in *. lia.
  - exact B.
  - exact L.
  - auto.
  - assert (M : forall f fee l, f <> 1 -> nth 3 (SignatureMessage f fee l) 0 = m_shift fee mod 256).
    { intros f fee l Nf. unfold SignatureMessage. apply N.eqb_neq in Nf. unfold COINBASE_KERNEL. rewrite Nf. cbn [negb]. unfold Fee_Serialize. rewrite !Append_eq. reflexivity. }
    assert (N3 : (k_features k =? 3) = false) by (destruct K as [->| ->]; reflexivity). rewrite N3 in Rx. eexists x, _. split; [exact Jx|]. split; [exact Rx|]. cbn [k_features k_fee k_lockHeight]. intros E.
    apply (f_equal (fun m => nth 3 m 0)) in E. rewrite !M in E by (destruct K as [->| ->]; discriminate). cbn [m_shift] in E.
    rewrite !N.mod_small in E by (clear -S; lia). clear -E S. lia.
Qed.

(** Input anyone can send for which the behaviour of the node is undefined: a kernel whose features are an empty object, and one whose signature cannot be parsed. *)
Theorem C67_undefined_refuted offset : is_bytes offset -> length offset = 32%nat ->
  let tx kernel := JObj [(chars "body", JObj [(chars "inputs", JArr []); (chars "kernels", JArr [kernel]); (chars "outputs", JArr [])]); (chars "offset", ConvertToJSON offset)] in
  Push (Some (JArr [tx (JObj [(chars "features", JObj [])])])) = (Undefined, []) /\
  forall c sig fee, is_bytes c -> nlen c = 33 -> is_bytes sig -> nlen sig = 64 -> parse_compact sig = None -> (0 <= fee < 2 ^ 64)%Z ->
    Push (Some (JArr [tx (JObj [(chars "excess", ConvertToJSON c); (chars "excess_sig", ConvertToJSON sig); (chars "features", JObj [(chars "Plain", JObj [(chars "fee", JNum fee)])])])])) = (Undefined, []).
Proof.
  intros B L tx. assert (T : forall k, Kernel_FromJSON parse_compact k = Fault -> Push (Some (JArr [tx k])) = (Undefined, [])).
  { intros k K. unfold PushTransaction, tx. cbn [isNull]. unfold Transaction_FromJSON, Body_FromJSON. look. change (isNull (ConvertToJSON offset)) with false. cbn [obind].
    rewrite vector_back by (auto; exact (nlen_nat _ 32 L)). cbn [obind]. look. cbn [elements obind read_all]. look. cbn [elements obind read_all]. look. cbn [elements obind read_all]. rewrite K. reflexivity. }
  split; [apply T; reflexivity|]. intros c sig fee Bc Lc Bs Ls P R. apply T. unfold Kernel_FromJSON, GetUInt64Or0, GetVector. look.
  change (KernelFeatures_FromString (chars "Plain")) with (Ret 0). cbn [obind]. look.
  assert (U : ConvertToUInt64 (JNum fee) = Ret (Z.to_N fee)). { unfold ConvertToUInt64. destruct R as [R1 R2]. apply Z.leb_le in R1. apply Z.ltb_lt in R2. rewrite R1, R2. reflexivity. }
  rewrite U. cbn [omap obind]. look. change (isNull (ConvertToJSON c)) with false. change (isNull (ConvertToJSON sig)) with false. cbn [obind].
  rewrite (vector_back _ _ Bc Lc). cbn [obind]. rewrite (vector_back _ _ Bs Ls). cbn [obind]. rewrite P. reflexivity.
Qed.
(** A list that is no list, a text or a number say, is not refused but read as an empty one. *)
Theorem C67_no_list_refuted s outputs kernels : Body_FromJSON Blake2b parse_compact (JObj [(chars "inputs", JStr s); (chars "kernels", kernels); (chars "outputs", outputs)]) =
  Body_FromJSON Blake2b parse_compact (JObj [(chars "inputs", JArr []); (chars "kernels", kernels); (chars "outputs", outputs)]).
Proof. reflexivity. Qed.
End TX.

(** A transaction that meets the hypotheses, and what happens to it; hashes and signatures are toys. *)
Definition ex_kernel : TransactionKernel := mkKernel 2 (mkFee 0 23500000) 1700000 (repeat 8 33) (repeat 5 64).
Definition ex_tx : Transaction := mkTx (repeat 200 32) (mkBody [mkInput 1 (repeat 9 33)] [mkOutput 0 (repeat 10 33) (repeat 171 675)] [ex_kernel]).
Example C67_example : postable (fun b => firstn 32 (b ++ repeat 0 32)) (fun s => s) Some ex_tx /\
  exists params, PostParams (fun s => s) ex_tx true = Ret params /\
    PushTransaction (fun b => firstn 32 (b ++ repeat 0 32)) Some (fun _ => true) (fun _ _ => true) (Some params) =
    (AnsweredOk, [AddedToPool ex_tx true true; Announced (kernel_hash (fun b => firstn 32 (b ++ repeat 0 32)) ex_kernel)]).
Proof.
  assert (P : postable (fun b => firstn 32 (b ++ repeat 0 32)) (fun s => s) Some ex_tx).
  { assert (R : forall x n, x < 256 -> is_bytes (repeat x n)) by (intros x n H; apply Forall_forall; intros y Y; apply repeat_spec in Y; subst; exact H).
    unfold postable, ex_tx. cbn [t_offset t_body b_inputs b_outputs b_kernels]. split; [apply R; reflexivity|]. split; [reflexivity|].
    split; [constructor; [split; [reflexivity|split; [apply R; reflexivity|reflexivity]]|constructor]|].
    split; [constructor; [split; [reflexivity|split; [apply R; reflexivity|split; [reflexivity|split; [apply R; reflexivity|reflexivity]]]]|constructor]|].
    split. { constructor; [|constructor]. split; [right; split; reflexivity|]. split; [reflexivity|]. split; [reflexivity|]. split; [apply R; reflexivity|].
             split; [reflexivity|]. split; [apply R; reflexivity|]. split; reflexivity. }
    split; [discriminate|]. split; [discriminate|]. split; [discriminate|]. split; [repeat constructor|]. split; repeat constructor. }
  split; [exact P|]. destruct (C67_posted_partial _ _ _ (fun _ => true) (fun _ _ => true) ex_tx true P eq_refl) as (params & E & reply & ann & E2 & R & _ & A).
  exists params. split; [exact E|]. rewrite E2, (A eq_refl eq_refl). destruct R as [_ R]. rewrite (R eq_refl). reflexivity.
Qed.

Definition txjson_theorems := (@C67_round_trip_partial, @C67_posted_partial, @C67_push_safe, @C67_stem_announced_refuted, @C67_other_kernels_refuted, @C67_empty_refuted,
  @C67_fee_shift_refuted, @C67_undefined_refuted, @C67_no_list_refuted, C67_example).
Print Assumptions txjson_theorems.
