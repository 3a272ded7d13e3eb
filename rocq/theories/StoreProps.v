(** C65: what the wallet stores is what it reads back. *)
From Coq Require Import Ascii String.
From Verif Require Import Base Bytes FileModel SerialModel SerialSpec SerialProofs TextModel KeyPathModel KeyPathProofs CodecModel CodecSpec CodecProofs
  SlateCodecModel SlateCodecSpec SlateCodecProofs StoreModel StoreSpec StoreProofs.
Local Open Scope N_scope.
Local Open Scope list_scope.

Definition ex_od st lbl := mkOD [0; 0; 5] (repeat 1 32) (mkOutput 0 (repeat 2 33) (repeat 3 675)) 60000000000 st (Some 9) (Some 77) (Some 4) lbl.
Lemma ex_od_fits st lbl : st < 256 -> N.of_nat (length (hd [] lbl)) < 1000 -> output_fits (ex_od st lbl).
Proof.
  intros S H. unfold output_fits, ex_od.
  cbn [od_path od_blind od_output od_amount od_status od_mmrIndex od_blockHeight od_walletTxId od_labels].
  split; [repeat (apply Forall_cons; [reflexivity|]); apply Forall_nil|]. split; [reflexivity|].
  split; [repeat split; apply Nat.leb_le; vm_compute; reflexivity|]. split; [reflexivity|]. split; [exact S|]. split; [reflexivity|]. split; [reflexivity|].
  split; [reflexivity|]. unfold OutputData_Serialize, AppendVarStr, AppendLength, Output_Serialize, RangeProof_Serialize, AppendByteVector, AppendBigInteger.
  cbn [od_path od_blind od_output od_amount od_status od_mmrIndex od_blockHeight od_walletTxId od_labels o_commitment o_features o_rangeProof].
  rewrite !app_length, !Append_length, !repeat_length. unfold AppendLength. rewrite Nat.add_0_l.
  change (length (Format [0; 0; 5])) with 7%nat. cbn [length]. lia.
Qed.
Section C65.
Variable Blake2b : bytes -> bytes.
Variable chain_features : bytes -> N.
Variable to_text : bytes -> bytes.
Variable of_text : bytes -> option bytes.
Variable AESE : bytes -> bytes -> bytes -> bytes.
Variable AESD : bytes -> bytes -> bytes -> outcome bytes.
Hypothesis AES : AES_ok AESE AESD.

Let saved_outputs seed saves := fold_left (fun t l => AddOutputs Blake2b AESE seed l t) saves [].
Let saved_txs seed saves := fold_left (fun t l => AddTransactions Blake2b to_text AESE seed l t) saves [].

(** After any history of saves, the wallet's outputs are exactly, for each commitment, what is kept of the
    output saved last with it: one per commitment, none invented, none missing. *)
Theorem C65_outputs_kept_partial seed (saves : list (list (OutputData * bytes))) :
  Forall (fun o => output_fits (fst o) /\ length (snd o) = 16%nat /\
                   row_short (Encrypt Blake2b AESE seed (chars "OUTPUT") (snd o) (OutputData_Serialize (fst o)))) (concat saves) ->
  exists os, GetOutputs Blake2b AESD seed (saved_outputs seed saves) = Ret os /\
    NoDup (map (fun e => o_commitment (od_output e)) os) /\
    forall e, In e os <->
      option_map (fun o => output_kept (fst o))
        (last_with (list_eq_dec N.eq_dec) (fun o => o_commitment (od_output (fst o))) (o_commitment (od_output e)) (concat saves)) = Some e.
Proof.
  intros F. rewrite Forall_forall in F. unfold GetOutputs.
  apply (holds_collect (list_eq_dec N.eq_dec) out_key (out_row Blake2b AESE seed) (concat saves) (saved_outputs seed saves) _
           (fun o => output_kept (fst o)) (fun e => o_commitment (od_output e))).
  - apply outputs_hold.
  - intros o I1. destruct (F o I1) as (A & B & C). apply (output_row Blake2b AESE AESD AES); assumption.
  - intros o _. reflexivity.
Qed.
(** What is kept is the output itself exactly if its position and height are not zero and it has at most
    one label, which is not empty. *)
Theorem C65_kept_exact e : output_kept e = e <-> output_plain e.
Proof. split; [apply kept_only|apply kept_plain]. Qed.
(** So an output with two labels, or with position 0 or height 0 (the first output, the first block), comes back different. *)
Theorem C65_labels_refuted : exists e, output_fits e /\ od_labels e = [[104]; [105]] /\
  omap fst (OutputData_Deserialize (mkBB 0 (OutputData_Serialize e) 1)) <> Ret e.
Proof.
  exists (ex_od 0 [[104]; [105]]). assert (F : output_fits (ex_od 0 [[104]; [105]])) by (apply ex_od_fits; reflexivity).
  split; [exact F|]. split; [reflexivity|]. rewrite read_output by exact F. discriminate.
Qed.
(** An output whose key path has a hardened index is stored without complaint; from then on reading the
    outputs of the wallet fails, whatever else was stored. *)
Theorem C65_hardened_path_refuted seed saves e iv :
  Forall (fun o => output_fits (fst o) /\ length (snd o) = 16%nat /\
                   row_short (Encrypt Blake2b AESE seed (chars "OUTPUT") (snd o) (OutputData_Serialize (fst o)))) (concat saves) ->
  (exists i, In i (od_path e) /\ 2147483648 <= i) -> length iv = 16%nat -> N.of_nat (length (OutputData_Serialize e)) < W64 ->
  row_short (Encrypt Blake2b AESE seed (chars "OUTPUT") iv (OutputData_Serialize e)) ->
  GetOutputs Blake2b AESD seed (saved_outputs seed (saves ++ [[(e, iv)]])) = Throw.
Proof.
  intros F HP IV L RS. unfold GetOutputs.
  destruct (outputs_hold Blake2b AESE seed (saves ++ [[(e, iv)]])) as (ND & H1 & H2). fold (saved_outputs seed (saves ++ [[(e, iv)]])) in *.
  rewrite concat_app in *. cbn [concat app] in *.
  apply collect_throws with (out_key (e, iv), out_row Blake2b AESE seed (e, iv)).
  - apply H2. rewrite last_app. destruct (list_eq_dec N.eq_dec (out_key (e, iv)) (out_key (e, iv))); [reflexivity|contradiction].
  - cbn [snd]. unfold out_row. cbn [fst snd]. rewrite (decrypt_encrypt Blake2b AESE AESD AES) by assumption. cbn [obind].
    rewrite hardened_read by assumption. reflexivity.
  - intros [k row] I1. destruct (H1 k row I1) as (o & E & ->). destruct (last_in _ _ _ _ _ E) as [I2 _]. cbn [snd].
    apply in_app_iff in I2. destruct I2 as [I2|[<-|[]]].
    + rewrite Forall_forall in F. destruct (F o I2) as (A & B & C). rewrite (output_row Blake2b AESE AESD AES) by assumption. discriminate.
    + unfold out_row. cbn [fst snd]. rewrite (decrypt_encrypt Blake2b AESE AESD AES) by assumption. cbn [obind].
      rewrite hardened_read by assumption. discriminate.
Qed.

(** After any history of saves, the wallet's transactions are exactly the last one saved with each id. *)
Theorem C65_transactions_kept_partial seed (saves : list (list (WalletTx * bytes))) :
  Forall (fun x => wtx_good Blake2b chain_features to_text of_text (fst x) /\ length (snd x) = 16%nat /\
                   row_short (Encrypt Blake2b AESE seed (chars "WALLET_TX") (snd x) (WalletTx_Serialize to_text (fst x)))) (concat saves) ->
  (exists ts, GetTransactions Blake2b chain_features of_text AESD seed (saved_txs seed saves) = Ret ts /\
    NoDup (map wt_id ts) /\
    forall t, In t ts <-> wt_id t < W32 /\ option_map fst (last_with N.eq_dec (fun x => wt_id (fst x)) (wt_id t) (concat saves)) = Some t) /\
  (forall id, id < W32 -> GetTransactionById Blake2b chain_features of_text AESD seed (saved_txs seed saves) id =
     Ret (option_map fst (last_with N.eq_dec (fun x => wt_id (fst x)) id (concat saves)))).
Proof.
  intros F. rewrite Forall_forall in F.
  assert (IDS : Forall (fun x : WalletTx * bytes => wt_id (fst x) < W32) (concat saves)).
  { apply Forall_forall. intros x I1. destruct (F x I1) as (((A & _) & _) & _). exact A. }
  pose proof (txs_hold Blake2b to_text AESE seed saves) as H. fold (saved_txs seed saves) in H.
  assert (RD : forall x, In x (concat saves) ->
     ReadTransaction Blake2b chain_features of_text AESD seed (snd (tx_key x, tx_row Blake2b to_text AESE seed x)) = Ret (fst x)).
  { intros x I1. destruct (F x I1) as (A & B & C). cbn [snd]. apply (tx_row_read Blake2b chain_features to_text of_text AESE AESD AES); assumption. }
  split.
  - destruct (holds_collect Z.eq_dec tx_key (tx_row Blake2b to_text AESE seed) (concat saves) (saved_txs seed saves)
       (fun row => ReadTransaction Blake2b chain_features of_text AESD seed (snd row)) fst (fun t => to_int (wt_id t)) H RD) as (ts & C & ND & M).
    { intros x _. reflexivity. }
    exists ts. split; [exact C|].
    assert (LT : forall t, In t ts -> wt_id t < W32).
    { intros t I1. apply M in I1. destruct (last_with Z.eq_dec tx_key (to_int (wt_id t)) (concat saves)) as [x|] eqn:Q; [|discriminate].
      cbn in I1. injection I1 as <-. destruct (last_in _ _ _ _ _ Q) as [I2 _]. rewrite Forall_forall in IDS. apply IDS, I2. }
    split.
    + clear C M. induction ts as [|t ts IH]; [constructor|]. cbn [map] in *. inversion ND as [|? ? NI ND']; subst.
      constructor; [|apply IH; [exact ND'|intros t' I'; apply LT; right; exact I']].
      intros I1. apply NI. apply in_map_iff in I1. destruct I1 as (t' & E & I1). apply in_map_iff. exists t'. rewrite E. split; [reflexivity|exact I1].
    + intros t. split.
      * intros I1. pose proof (LT t I1) as B. split; [exact B|]. apply M in I1. rewrite last_tx in I1 by assumption. exact I1.
      * intros [B E]. apply M. rewrite last_tx by assumption. exact E.
  - intros id B. rewrite <- last_tx by assumption. unfold GetTransactionById. destruct H as (ND & H1 & H2).
    pose proof (find_row (to_int id) (saved_txs seed saves) ND) as R.
    destruct (find (fun row => (fst row =? to_int id)%Z) (saved_txs seed saves)) as [[k row]|].
    + destruct R as [I1 E]. cbn [fst] in E. subst k. destruct (H1 _ _ I1) as (x & E & ->). destruct (last_in _ _ _ _ _ E) as [I2 EK].
      rewrite E. cbn [snd option_map]. pose proof (RD x I2) as RX. cbn [snd] in RX. rewrite RX. reflexivity.
    + destruct (last_with Z.eq_dec tx_key (to_int id) (concat saves)) as [x|] eqn:Q; [|reflexivity].
      exfalso. exact (R _ (H2 _ _ Q)).
Qed.
(** A time is stored to the millisecond: two transactions created at different times within the same
    millisecond have the same stored form, so at least one of them comes back changed. *)
Theorem C65_time_refuted id ty sl ad ms co he cr de fee tx pr (m d d' : Z) : (0 <= m)%Z -> (0 <= d < 1000000)%Z -> (0 <= d' < 1000000)%Z ->
  WalletTx_Serialize to_text (mkWTx id ty sl ad ms (m * 1000000 + d) co he cr de fee tx pr) =
  WalletTx_Serialize to_text (mkWTx id ty sl ad ms (m * 1000000 + d') co he cr de fee tx pr).
Proof.
  intros M D D'. assert (Q : forall x, (0 <= x < 1000000)%Z -> ToInt64 (m * 1000000 + x) = m).
  { clear - M. intros x X. unfold ToInt64. rewrite Z.quot_div_nonneg by lia. rewrite Z.div_add_l by lia. rewrite (Z.div_small x) by lia. lia. }
  unfold WalletTx_Serialize. cbn [wt_id wt_type wt_slateId wt_address wt_message wt_created wt_confirmed wt_height wt_credited wt_debited wt_fee wt_transaction wt_proof].
  rewrite (Q d D), (Q d' D'). reflexivity.
Qed.

(** The context saved for a slate is the one loaded for it, and saving it changes no other. *)
Theorem C65_context_kept_partial seed id iv c t t' : context_good c -> length iv = 16%nat ->
  SaveSlateContext Blake2b to_text AESE seed id iv c t = Ret t' ->
  LoadSlateContext Blake2b to_text AESD seed t' id = Ret (Some c) /\
  forall id', id' <> id -> LoadSlateContext Blake2b to_text AESD seed t' id' = LoadSlateContext Blake2b to_text AESD seed t id'.
Proof.
  intros (K & NN & F & P & I1 & L) IV S. unfold SaveSlateContext in S.
  destruct (existsb (fun r => SlateCodecModel.bytes_eqb (fst r) id) t) eqn:Q; [discriminate|]. injection S as <-.
  assert (FA : forall id' x, find (fun r : bytes * (bytes * bytes) => SlateCodecModel.bytes_eqb (fst r) id') (t ++ [x]) =
     match find (fun r => SlateCodecModel.bytes_eqb (fst r) id') t with Some y => Some y | None => if SlateCodecModel.bytes_eqb (fst x) id' then Some x else None end).
  { intros id' x. clear. induction t as [|y t IH]; cbn [app find]; [reflexivity|]. destruct (SlateCodecModel.bytes_eqb (fst y) id'); [reflexivity|exact IH]. }
  split.
  - unfold LoadSlateContext. rewrite FA. cbn [fst].
    assert (N : find (fun r => SlateCodecModel.bytes_eqb (fst r) id) t = None).
    { clear FA. induction t as [|y t IH]; [reflexivity|]. cbn [find existsb] in *. destruct (SlateCodecModel.bytes_eqb (fst y) id); [discriminate|exact (IH Q)]. }
    rewrite N, (proj2 (sbytes_eqb id id) eq_refl). unfold nlen. rewrite IV. change (negb (N.of_nat 16 =? 16)) with false. cbv iota.
    rewrite AES by exact IV. cbn [obind].
    assert (D : decodes 1 Context_Deserialize (Context_Serialize c) c) by (apply dec_context; assumption).
    pose proof (D [] []) as R. cbn [app length] in R. rewrite app_nil_r in R. change (N.of_nat 0) with 0 in R. rewrite R by exact L. reflexivity.
  - intros id' N. unfold LoadSlateContext. rewrite FA. cbn [fst].
    destruct (find (fun r => SlateCodecModel.bytes_eqb (fst r) id') t) as [y|]; [reflexivity|].
    destruct (SlateCodecModel.bytes_eqb id id') eqn:E; [|reflexivity]. apply sbytes_eqb in E. congruence.
Qed.
(** A context is written once: while a slate has one, saving another fails and changes nothing. *)
Theorem C65_context_once seed id iv c t : In id (map fst t) -> SaveSlateContext Blake2b to_text AESE seed id iv c t = Throw.
Proof.
  intros H. unfold SaveSlateContext. assert (E : existsb (fun r => SlateCodecModel.bytes_eqb (fst r) id) t = true).
  { apply in_map_iff in H. destruct H as (r & E & H). apply existsb_exists. exists r. split; [exact H|]. apply sbytes_eqb. exact E. }
  rewrite E. reflexivity.
Qed.
(** Any context with a single input that belongs to no transaction and no output of its own is saved
    without complaint and can never be loaded again. *)
Theorem C65_context_refuted seed id iv key nonce e t t' : length key = 32%nat -> length nonce = 32%nat -> output_fits e ->
  od_walletTxId e = None -> N.of_nat (length (OutputData_Serialize e)) < 2 ^ 63 -> length iv = 16%nat ->
  ~ In id (map fst t) ->
  SaveSlateContext Blake2b to_text AESE seed id iv (mkCtx key nonce [e] []) t = Ret t' ->
  LoadSlateContext Blake2b to_text AESD seed t' id = Throw.
Proof.
  intros K NN F NI L IV NID S. unfold SaveSlateContext in S.
  destruct (existsb (fun r => SlateCodecModel.bytes_eqb (fst r) id) t) eqn:Q; [discriminate|]. injection S as <-.
  assert (N : find (fun r => SlateCodecModel.bytes_eqb (fst r) id) (t ++ [(id, (iv, AESE (Context_Serialize (mkCtx key nonce [e] [])) (DeriveAESKey Blake2b to_text seed id) iv))]) =
     Some (id, (iv, AESE (Context_Serialize (mkCtx key nonce [e] [])) (DeriveAESKey Blake2b to_text seed id) iv))).
  { clear NID. induction t as [|y t IH]; cbn [app find existsb fst] in *; [rewrite (proj2 (sbytes_eqb id id) eq_refl); reflexivity|].
    destruct (SlateCodecModel.bytes_eqb (fst y) id); [discriminate|exact (IH Q)]. }
  unfold LoadSlateContext. rewrite N. unfold nlen at 1. rewrite IV. change (negb (N.of_nat 16 =? 16)) with false. cbv iota.
  rewrite AES by exact IV. cbn [obind]. rewrite context_lost by assumption. reflexivity.
Qed.

(** Different kinds of data, and different slates, are encrypted under different keys, unless the hash collides. *)
Lemma app_split (a b x y : bytes) : length a = length b -> a ++ x = b ++ y -> a = b /\ x = y.
Proof.
  revert b. induction a as [|c a IH]; intros [|d b] EL E; try discriminate; [split; [reflexivity|exact E]|].
  cbn [app] in E. injection E as <- E. destruct (IH b) as [-> ->]; [injection EL as EL; exact EL | exact E |]. split; reflexivity.
Qed.
Lemma varstr_inj a b x y : N.of_nat (length a) < W64 -> N.of_nat (length b) < W64 -> AppendVarStr a ++ x = AppendVarStr b ++ y -> a = b /\ x = y.
Proof.
  intros A B E. unfold AppendVarStr, AppendLength in E. rewrite <- !app_assoc in E.
  apply app_split in E; [|rewrite !Append_length; reflexivity]. destruct E as [E1 E2].
  assert (EL : nlen a = nlen b).
  { pose proof (dec_be 1 8 (nlen a) A [] []) as D1. pose proof (dec_be 1 8 (nlen b) B [] []) as D2. cbn [app] in D1, D2. rewrite app_nil_r in D1, D2.
    rewrite E1 in D1. rewrite D2 in D1 by (rewrite Append_length; reflexivity). specialize (D1 ltac:(rewrite Append_length; reflexivity)). congruence. }
  apply app_split in E2; [exact E2|]. unfold nlen in EL. apply Nat2N.inj in EL. exact EL.
Qed.
Theorem C65_keys_differ seed :
  (forall ty ty', N.of_nat (length ty) < W64 -> N.of_nat (length ty') < W64 ->
     CreateSecureKey Blake2b seed ty = CreateSecureKey Blake2b seed ty' -> ty = ty' \/ collision Blake2b) /\
  (forall id id', N.of_nat (length (to_text id)) < W64 -> N.of_nat (length (to_text id')) < W64 ->
     DeriveAESKey Blake2b to_text seed id = DeriveAESKey Blake2b to_text seed id' -> to_text id = to_text id' \/ collision Blake2b) /\
  (forall ty id, N.of_nat (length ty) < W64 -> N.of_nat (length (to_text id)) < W64 ->
     CreateSecureKey Blake2b seed ty = DeriveAESKey Blake2b to_text seed id -> collision Blake2b).
Proof.
  split; [|split].
  - intros ty ty' A B E. unfold CreateSecureKey in E.
    destruct (list_eq_dec N.eq_dec (seed ++ AppendVarStr ty) (seed ++ AppendVarStr ty')) as [Q|Q]; [|right; eexists _, _; split; [exact Q|exact E]].
    left. apply app_inv_head in Q. destruct (varstr_inj ty ty' [] [] A B) as [R _]; [rewrite !app_nil_r; exact Q|exact R].
  - intros id id' A B E. unfold DeriveAESKey in E.
    match type of E with Blake2b ?a = Blake2b ?b => destruct (list_eq_dec N.eq_dec a b) as [Q|Q]; [|right; exists a, b; split; [exact Q|exact E]] end.
    left. unfold AppendByteVector, AppendLength in Q. cbn [app] in Q. apply app_inv_head in Q.
    destruct (varstr_inj _ _ _ _ A B Q) as [R _]. exact R.
  - intros ty id A B E. unfold DeriveAESKey, CreateSecureKey in E.
    match type of E with Blake2b ?a = Blake2b ?b => destruct (list_eq_dec N.eq_dec a b) as [Q|Q]; [|exists a, b; split; [exact Q|exact E]] end.
    exfalso. unfold AppendByteVector, AppendLength in Q. cbn [app] in Q. apply app_inv_head in Q. rewrite <- (app_nil_r (AppendVarStr ty)) in Q.
    destruct (varstr_inj _ _ _ _ A B Q) as [_ R]. discriminate.
Qed.
(** A table written by earlier versions, of formats 0 to 2, is read as it was written; what its formats have no room for is absent. *)
Theorem C65_old_formats seed (rows : list (N * WalletTx * bytes)) :
  Forall (fun '(format, t, iv) => of_format format t /\ wtx_fits Blake2b chain_features t /\ wtx_plain t /\
    (forall u, wt_slateId t = Some u -> of_text (to_text u) = Some u /\ to_text u <> []) /\ N.of_nat (length (old_record to_text format t)) < W64 /\
    length iv = 16%nat /\ row_short (Encrypt Blake2b AESE seed (chars "WALLET_TX") iv (old_record to_text format t))) rows ->
  GetTransactions Blake2b chain_features of_text AESD seed
    (map (fun '(format, t, iv) => (Z.of_N (wt_id t), Encrypt Blake2b AESE seed (chars "WALLET_TX") iv (old_record to_text format t))) rows)
  = Ret (map (fun '(_, t, _) => t) rows).
Proof.
  intros F. unfold GetTransactions. induction F as [|[[f t] iv] rows (A1 & A2 & A3 & A4 & A5 & A6 & A7) _ IH]; [reflexivity|].
  cbn [map collect snd]. unfold ReadTransaction at 1. rewrite (decrypt_encrypt Blake2b AESE AESD AES) by assumption. cbn [obind].
  rewrite read_old_transaction by assumption. cbn [obind]. rewrite IH. reflexivity.
Qed.
End C65.

(** A history with two versions of an output and of a transaction, and a context. *)
Definition ex_tx ty := mkWTx 4 ty (Some (repeat 8 16)) (Some [97]) None 1600000000123000000 (Some 1600000000456000000%Z) (Some 77) 60000000000 0
  (Some (mkFee 0 8000000)) None (Some (mkSProof (repeat 5 32) (repeat 6 32) (Some (repeat 7 64)))).
Definition ex_key_cipher (d k iv : bytes) : bytes := iv ++ d.
Definition ex_key_decipher (d k iv : bytes) : outcome bytes := Ret (skipn 16 d).
Lemma ex_aes : AES_ok ex_key_cipher ex_key_decipher.
Proof.
  intros d k iv L. unfold ex_key_cipher, ex_key_decipher. f_equal. rewrite <- L. clear. induction iv; [reflexivity|exact IHiv].
Qed.
Example C65_example :
  AES_ok ex_key_cipher ex_key_decipher /\
  (let saves := [[(ex_od 2 [], repeat 1 16)]; [(ex_od 0 [[104; 105]], repeat 2 16)]] in
   let h := fun x => firstn 32 x in
   GetOutputs h ex_key_decipher [9] (fold_left (fun t l => AddOutputs h ex_key_cipher [9] l t) saves []) = Ret [ex_od 0 [[104; 105]]]) /\
  Forall (fun o => output_fits (fst o)) [(ex_od 2 [], repeat 1 16); (ex_od 0 [[104; 105]], repeat 2 16)] /\
  wtx_good (fun x => x) (fun _ => 0) (fun u => 45 :: u) (fun s => Some (tl s)) (ex_tx 1) /\
  (let saves := [[(ex_tx 5, repeat 1 16)]; [(ex_tx 1, repeat 2 16)]] in
   let h := fun x => firstn 32 x in
   GetTransactionById h (fun _ => 0) (fun s => Some (tl s)) ex_key_decipher [9]
     (fold_left (fun t l => AddTransactions h (fun u => 45 :: u) ex_key_cipher [9] l t) saves []) 4 = Ret (Some (ex_tx 1))) /\
  context_good (mkCtx (repeat 1 32) (repeat 2 32) [ex_od 0 []] [ex_od 2 [[104]]]).
Proof.
  split; [exact ex_aes|]. split; [vm_compute; reflexivity|].
  split; [apply Forall_cons; [apply ex_od_fits; reflexivity|apply Forall_cons; [apply ex_od_fits; reflexivity|apply Forall_nil]]|].
  split.
  { split; [repeat split; try (vm_compute; reflexivity); discriminate|]. split.
    - split; [exists 1600000000123%Z; reflexivity|]. split; [split; [exists 1600000000456%Z; reflexivity|discriminate]|]. repeat split; discriminate.
    - split; [intros u _; split; [reflexivity|discriminate]|]. vm_compute. reflexivity. }
  split; [vm_compute; reflexivity|].
  split; [reflexivity|]. split; [reflexivity|]. cbn [cx_inputs cx_outputs app].
  split; [apply Forall_cons; [apply ex_od_fits; reflexivity|apply Forall_cons; [apply ex_od_fits; reflexivity|apply Forall_nil]]|].
  split; [repeat (apply Forall_cons; [repeat split; try discriminate; exact I|]); apply Forall_nil|].
  split; [repeat (apply Forall_cons; [discriminate|]); apply Forall_nil|]. vm_compute. reflexivity.
Qed.

Definition ex_old := mkWTx 4 1 (Some (repeat 8 16)) None (Some [97; 98]) 1600000000123000000 None None 5 6 (Some (mkFee 0 8000000)) None None.
Example C65_old_example :
  of_format 1 ex_old /\ wtx_fits (fun x => x) (fun _ => 0) ex_old /\ wtx_plain ex_old /\
  (let h := fun x => firstn 32 x in
   GetTransactions h (fun _ => 0) (fun s => Some (tl s)) ex_key_decipher [9]
     [(4%Z, Encrypt h ex_key_cipher [9] (chars "WALLET_TX") (repeat 1 16) (old_record (fun u => 45 :: u) 1 ex_old))] = Ret [ex_old]).
Proof.
  split; [repeat split; try discriminate; intros; discriminate|]. split; [repeat split; try (vm_compute; reflexivity); discriminate|].
  split; [|vm_compute; reflexivity]. split; [exists 1600000000123%Z; reflexivity|]. repeat split; discriminate.
Qed.

Definition C65_all := (@C65_old_formats, @C65_old_example, @C65_outputs_kept_partial, @C65_kept_exact, @C65_labels_refuted, @C65_hardened_path_refuted, @C65_transactions_kept_partial,
  @C65_time_refuted, @C65_context_kept_partial, @C65_context_once, @C65_context_refuted, @C65_keys_differ, @C65_example).
Print Assumptions C65_all.
