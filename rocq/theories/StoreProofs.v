(** Lemmas for C65. *)
From Coq Require Import Ascii String.
From Verif Require Import Base Bytes FileModel SerialModel SerialSpec SerialProofs TextModel KeyPathModel KeyPathProofs CodecModel CodecSpec CodecProofs
  SlateCodecModel SlateCodecSpec SlateCodecProofs StoreModel StoreSpec.
Local Open Scope N_scope.
Local Open Scope list_scope.

(** [decodes] restricted to what may follow *)
Definition decP {A} (P : bytes -> Prop) (v : N) (r : reader A) (bs : bytes) (a : A) : Prop :=
  forall pre suf, P suf -> N.of_nat (length (pre ++ bs ++ suf)) < W64 ->
    r (mkBB (N.of_nat (length pre)) (pre ++ bs ++ suf) v) =
      Ret (a, mkBB (N.of_nat (length pre) + N.of_nat (length bs)) (pre ++ bs ++ suf) v).
Definition any (_ : bytes) : Prop := True.
Definition nothing (s : bytes) : Prop := s = [].

Lemma decP_of {A} P v (r : reader A) bs a : decodes v r bs a -> decP P v r bs a.
Proof. intros D pre suf _ L. apply D, L. Qed.
Lemma decP_any {A} v (r : reader A) bs a : decP any v r bs a -> decodes v r bs a.
Proof. intros D pre suf L. apply D; [exact I|exact L]. Qed.
Lemma decP_bind {A B} P v (r : reader A) (k : A -> reader B) bs1 bs2 a b :
  decodes v r bs1 a -> decP P v (k a) bs2 b -> decP P v (rbind r k) (bs1 ++ bs2) b.
Proof.
  intros H1 H2 pre suf HP Hl. unfold rbind.
  replace (pre ++ (bs1 ++ bs2) ++ suf) with (pre ++ bs1 ++ (bs2 ++ suf)) in * by (rewrite <- !app_assoc; reflexivity).
  rewrite H1 by assumption. cbn [obind fst snd].
  replace (pre ++ bs1 ++ bs2 ++ suf) with ((pre ++ bs1) ++ bs2 ++ suf) in * by (rewrite <- !app_assoc; reflexivity).
  replace (N.of_nat (length pre) + N.of_nat (length bs1)) with (N.of_nat (length (pre ++ bs1))) by (rewrite app_length; lia).
  rewrite H2 by assumption. f_equal. f_equal. f_equal. rewrite !app_length. lia.
Qed.
Lemma decP_bind_nil {A B} P v (r : reader A) (k : A -> reader B) bs a b :
  decodes v r [] a -> decP P v (k a) bs b -> decP P v (rbind r k) bs b.
Proof. intros H1 H2. change bs with ([] ++ bs). eapply decP_bind; eassumption. Qed.
Lemma remaining pre bs suf v : N.of_nat (length (pre ++ bs ++ suf)) < W64 ->
  GetRemainingSize (mkBB (N.of_nat (length pre)) (pre ++ bs ++ suf) v) = N.of_nat (length (bs ++ suf)).
Proof.
  intros L. unfold GetRemainingSize. cbn [m_bytes m_index]. unfold nlen. rewrite app_length in *.
  rewrite sub64_small by lia. lia.
Qed.
Lemma decP_more {B} P v (k : bool -> reader B) bs b : bs <> [] -> decP P v (k true) bs b -> decP P v (rbind HasMore k) bs b.
Proof.
  intros NE D pre suf HP L. unfold rbind, HasMore. rewrite remaining by exact L.
  destruct (N.eqb_spec (N.of_nat (length (bs ++ suf))) 0) as [E|E].
  - exfalso. apply NE. destruct bs; [reflexivity|]. cbn [app length] in E. lia.
  - cbn [negb obind fst snd]. apply D; assumption.
Qed.
Lemma decP_no_more {B} v (k : bool -> reader B) b : decP nothing v (k false) [] b -> decP nothing v (rbind HasMore k) [] b.
Proof.
  intros D pre suf HP L. unfold rbind, HasMore. rewrite remaining by exact L. rewrite HP in *. cbn [app length].
  cbn [N.of_nat]. change (0 =? 0) with true. cbn [negb obind fst snd]. apply (D pre []); [reflexivity|exact L].
Qed.
Lemma dec_lift {A} v (o : outcome A) a : o = Ret a -> decodes v (lift o) [] a.
Proof. intros -> pre suf _. unfold lift. cbn [omap length]. rewrite N.add_0_r. reflexivity. Qed.
Lemma decP_read {A} v (r : reader A) bs a : decP nothing v r bs a -> N.of_nat (length bs) < W64 -> omap fst (r (mkBB 0 bs v)) = Ret a.
Proof.
  intros D L. pose proof (D [] [] eq_refl) as R. cbn [app length] in R. rewrite app_nil_r in R. change (N.of_nat 0) with 0 in R.
  rewrite R by exact L. reflexivity.
Qed.

(** * Outputs *)
Lemma nonzero_kept o : nonzero (value_or0 o) = forget_zero o.
Proof. destruct o as [[|p]|]; reflexivity. Qed.
Lemma value_fits o : fits64 o -> value_or0 o < 256 ^ N.of_nat 8.
Proof. change (256 ^ N.of_nat 8) with W64. destruct o; cbn; lia. Qed.
Lemma Append_ne k n bs : (0 < k)%nat -> Append k n ++ bs <> [].
Proof. intros K E. apply (f_equal (@length _)) in E. rewrite app_length, Append_length in E. cbn in E. lia. Qed.

Lemma dec_output_data (P : bytes -> Prop) v e : output_fits e -> (od_walletTxId e = None -> forall s, P s -> s = []) ->
  decP P v OutputData_Deserialize (OutputData_Serialize e) (output_kept e).
Proof.
  intros (HP & HB & HO & HA & HS & HM & HH & HI & HL) Q. destruct e as [path blind out am st mmr h id lb].
  cbn [od_path od_blind od_output od_amount od_status od_mmrIndex od_blockHeight od_walletTxId od_labels] in *.
  assert (LP : N.of_nat (length (Format path)) < W64 /\ N.of_nat (length (hd [] lb)) < W64).
  { unfold OutputData_Serialize in HL. cbn [od_path od_blind od_output od_amount od_status od_mmrIndex od_blockHeight od_walletTxId od_labels] in HL.
    unfold AppendVarStr, AppendBigInteger in HL. rewrite !app_length in HL. lia. }
  destruct LP as [LP LL]. clear HL.
  unfold OutputData_Deserialize, OutputData_Serialize, output_kept, AppendBigInteger.
  cbn [od_path od_blind od_output od_amount od_status od_mmrIndex od_blockHeight od_walletTxId od_labels].
  eapply decP_bind; [apply dec_be; reflexivity|]. change (OUTPUT_DATA_FORMAT <? OUTPUT_DATA_FORMAT) with false. cbv iota.
  eapply decP_bind; [apply dec_varstr; exact LP|].
  eapply decP_bind_nil; [apply dec_lift, text_roundtrip; exact HP|].
  eapply decP_bind; [apply dec_vector; rewrite HB; reflexivity|].
  eapply decP_bind; [apply dec_output; exact HO|].
  eapply decP_bind; [apply dec_be; exact HA|].
  eapply decP_bind; [apply dec_be; exact HS|].
  eapply decP_bind; [apply dec_be, value_fits; exact HM|].
  apply decP_more; [apply Append_ne; lia|].
  eapply decP_bind; [apply dec_be, value_fits; exact HH|].
  change (1 <=? OUTPUT_DATA_FORMAT) with true. cbv iota.
  eapply decP_bind; [eapply dec_last; [apply dec_varstr; exact LL|reflexivity]|].
  assert (EL : match hd [] lb with [] => [] | _ => [hd [] lb] end = keep_label lb) by (destruct lb as [|[|]]; reflexivity).
  rewrite EL, !nonzero_kept. destruct id as [id|].
  - rewrite <- (app_nil_r (Append 4 id)). apply decP_more; [apply Append_ne; lia|]. cbv iota.
    apply decP_bind with (Some id).
    + eapply dec_last; [apply dec_be; exact HI|reflexivity].
    + apply decP_of, dec_ret.
  - assert (D : decP nothing v (let! more2 := HasMore in let! walletTxId := (if more2 then let! id := ReadU32 in rret (Some id) else rret None) in
      rret (mkOD path blind out am st (forget_zero mmr) (forget_zero h) walletTxId (keep_label lb))) []
      (mkOD path blind out am st (forget_zero mmr) (forget_zero h) None (keep_label lb))).
    { apply decP_no_more. cbv iota. eapply decP_bind_nil; [apply dec_ret|]. apply decP_of, dec_ret. }
    intros pre suf HP' L. apply D; [exact (Q eq_refl suf HP')|exact L].
Qed.
Lemma kept_plain e : output_plain e -> output_kept e = e.
Proof.
  intros (M & H & L). destruct e as [path blind out am st mmr h id lb]. cbn in *. unfold output_kept. cbn.
  assert (F : forall o : option N, o <> Some 0 -> forget_zero o = o) by (intros [[|p]|] N; [exfalso; apply N; reflexivity|reflexivity|reflexivity]).
  rewrite !F by assumption. destruct lb as [|[|c w] [|l2 rest]]; cbn; try reflexivity; try contradiction.
Qed.
Lemma kept_only e : output_kept e = e -> output_plain e.
Proof.
  destruct e as [path blind out am st mmr h id lb]. unfold output_kept. cbn. intros E. injection E as M H L.
  assert (F : forall o : option N, forget_zero o = o -> o <> Some 0) by (intros [[|p]|] N; discriminate).
  split; [apply F, M|]. split; [apply F, H|]. cbn. destruct lb as [|[|c w] [|l2 rest]]; cbn in L; try exact I; discriminate.
Qed.
Lemma read_output e : output_fits e -> omap fst (OutputData_Deserialize (mkBB 0 (OutputData_Serialize e) 1)) = Ret (output_kept e).
Proof.
  intros F. apply decP_read; [apply dec_output_data; [exact F|intros _ s S; exact S] | apply F].
Qed.

(** * Contexts *)
Lemma map_kept l : Forall output_plain l -> map output_kept l = l.
Proof. induction 1; cbn; [reflexivity|]. rewrite kept_plain, IHForall by assumption. reflexivity. Qed.
Lemma OD_nonempty e : (1 <= length (OutputData_Serialize e))%nat.
Proof. unfold OutputData_Serialize. rewrite app_length, Append_length. lia. Qed.
Lemma dec_outputs v l : Forall output_fits l -> Forall (fun e => od_walletTxId e <> None) l -> Forall output_plain l ->
  decodes v (read_many OutputData_Deserialize (length l)) (flat_map OutputData_Serialize l) l.
Proof.
  intros F I P. apply dec_many. rewrite Forall_forall in *. intros e E.
  pose proof (dec_output_data any v e (F e E)) as D. rewrite (kept_plain e (P e E)) in D. apply decP_any, D.
  intros N. exfalso. exact (I e E N).
Qed.
Lemma dec_context v c : length (cx_key c) = 32%nat -> length (cx_nonce c) = 32%nat ->
  Forall output_fits (cx_inputs c ++ cx_outputs c) -> Forall output_plain (cx_inputs c ++ cx_outputs c) ->
  Forall (fun e => od_walletTxId e <> None) (cx_inputs c ++ cx_outputs c) ->
  decodes v Context_Deserialize (Context_Serialize c) c.
Proof.
  intros K NN F P I. destruct c as [key nonce ins outs]. cbn [cx_key cx_nonce cx_inputs cx_outputs] in *.
  apply Forall_app in F, P, I. destruct F as [F1 F2], P as [P1 P2], I as [I1 I2].
  apply dec_long. unfold Context_Deserialize, Context_Serialize, AppendBigInteger. cbn [cx_key cx_nonce cx_inputs cx_outputs].
  intros L.
  assert (C : nlen ins < W64 /\ nlen outs < W64).
  { rewrite !app_length, !Append_length in L.
    pose proof (flat_map_long OutputData_Serialize ins (fun e _ => OD_nonempty e)) as A1.
    pose proof (flat_map_long OutputData_Serialize outs (fun e _ => OD_nonempty e)) as A2. unfold nlen. lia. }
  destruct C as [C1 C2].
  eapply dec_bind; [apply dec_vector; rewrite K; reflexivity|].
  eapply dec_bind; [apply dec_vector; rewrite NN; reflexivity|].
  eapply dec_bind; [apply dec_be; exact C1|].
  eapply dec_bind; [unfold nlen; rewrite Nat2N.id; apply dec_outputs; assumption|].
  eapply dec_bind; [apply dec_be; exact C2|].
  eapply dec_last; [unfold nlen; rewrite Nat2N.id; apply dec_outputs; assumption|reflexivity].
Qed.

(** One output without a transaction, then something else: the transaction is read from what follows. *)
Lemma od_steals v e suf : output_fits e -> od_walletTxId e = None -> (4 <= length suf)%nat ->
  forall pre, N.of_nat (length (pre ++ OutputData_Serialize e ++ suf)) < W64 ->
  exists id, OutputData_Deserialize (mkBB (N.of_nat (length pre)) (pre ++ OutputData_Serialize e ++ suf) v) =
    Ret (mkOD (od_path e) (od_blind e) (od_output e) (od_amount e) (od_status e) (forget_zero (od_mmrIndex e))
              (forget_zero (od_blockHeight e)) (Some id) (keep_label (od_labels e)),
         mkBB (N.of_nat (length pre) + N.of_nat (length (OutputData_Serialize e)) + 4) (pre ++ OutputData_Serialize e ++ suf) v).
Proof.
  intros F NI L4 pre L.
  assert (D : exists id, decP (fun s => exists t, suf = firstn 4 suf ++ t /\ s = t) v OutputData_Deserialize (OutputData_Serialize e ++ firstn 4 suf)
     (mkOD (od_path e) (od_blind e) (od_output e) (od_amount e) (od_status e) (forget_zero (od_mmrIndex e))
              (forget_zero (od_blockHeight e)) (Some id) (keep_label (od_labels e)))).
  { exists (le_value (rev (firstn 4 suf))).
    destruct F as (HP & HB & HO & HA & HS & HM & HH & HI & HL). destruct e as [path blind out am st mmr h id lb].
    cbn [od_path od_blind od_output od_amount od_status od_mmrIndex od_blockHeight od_walletTxId od_labels] in *. subst id.
    assert (LP : N.of_nat (length (Format path)) < W64 /\ N.of_nat (length (hd [] lb)) < W64).
    { unfold OutputData_Serialize in HL. cbn [od_path od_blind od_output od_amount od_status od_mmrIndex od_blockHeight od_walletTxId od_labels] in HL.
      unfold AppendVarStr, AppendBigInteger in HL. rewrite !app_length in HL. lia. }
    destruct LP as [LP LL]. clear HL L.
    unfold OutputData_Deserialize, OutputData_Serialize, AppendBigInteger.
    cbn [od_path od_blind od_output od_amount od_status od_mmrIndex od_blockHeight od_walletTxId od_labels].
    rewrite !app_nil_r, <- !app_assoc.
    eapply decP_bind; [apply dec_be; reflexivity|]. change (OUTPUT_DATA_FORMAT <? OUTPUT_DATA_FORMAT) with false. cbv iota.
    eapply decP_bind; [apply dec_varstr; exact LP|].
    eapply decP_bind_nil; [apply dec_lift, text_roundtrip; exact HP|].
    eapply decP_bind; [apply dec_vector; rewrite HB; reflexivity|].
    eapply decP_bind; [apply dec_output; exact HO|].
    eapply decP_bind; [apply dec_be; exact HA|].
    eapply decP_bind; [apply dec_be; exact HS|].
    eapply decP_bind; [apply dec_be, value_fits; exact HM|].
    apply decP_more; [apply Append_ne; lia|].
    eapply decP_bind; [apply dec_be, value_fits; exact HH|].
    change (1 <=? OUTPUT_DATA_FORMAT) with true. cbv iota.
    eapply decP_bind; [eapply dec_last; [apply dec_varstr; exact LL|reflexivity]|].
    assert (EL : match hd [] lb with [] => [] | _ => [hd [] lb] end = keep_label lb) by (destruct lb as [|[|]]; reflexivity).
    rewrite EL, !nonzero_kept.
    assert (L4' : length (firstn 4 suf) = 4%nat) by (rewrite firstn_length; lia).
    apply decP_more. { intros E. rewrite E in L4'. discriminate. }
    cbv iota. apply decP_of.
    eapply dec_last; [eapply dec_last; [eapply dec_last; [apply dec_vector; rewrite L4'; reflexivity|reflexivity]|reflexivity]|reflexivity]. }
  destruct D as (id & D). exists id.
  assert (SP : suf = firstn 4 suf ++ skipn 4 suf) by (symmetry; apply firstn_skipn).
  assert (EQ : pre ++ OutputData_Serialize e ++ suf = pre ++ (OutputData_Serialize e ++ firstn 4 suf) ++ skipn 4 suf)
    by (rewrite <- app_assoc, <- SP; reflexivity).
  rewrite EQ in *. rewrite (D pre (skipn 4 suf)); [|exists (skipn 4 suf); split; [exact SP|reflexivity]|exact L].
  f_equal. f_equal. f_equal. rewrite app_length, firstn_length. lia.
Qed.

Lemma read_short v k pre suf : (length suf < k)%nat -> N.of_nat (length (pre ++ suf)) + N.of_nat k < W64 ->
  ReadBigEndian k (mkBB (N.of_nat (length pre)) (pre ++ suf) v) = Throw.
Proof.
  intros S L. unfold ReadBigEndian, rbind, ReadVector. cbn [m_bytes m_index]. rewrite app_length in L.
  rewrite add64_small by lia. unfold nlen. rewrite app_length.
  destruct (N.ltb_spec (N.of_nat (length pre + length suf)) (N.of_nat (length pre) + N.of_nat k)); [reflexivity|lia].
Qed.
Lemma context_lost v key nonce e : length key = 32%nat -> length nonce = 32%nat -> output_fits e -> od_walletTxId e = None ->
  N.of_nat (length (OutputData_Serialize e)) < 2 ^ 63 ->
  Context_Deserialize (mkBB 0 (Context_Serialize (mkCtx key nonce [e] [])) v) = Throw.
Proof.
  intros K NN F NI L. change (2 ^ 63) with 9223372036854775808 in L.
  unfold Context_Serialize, AppendBigInteger. cbn [cx_key cx_nonce cx_inputs cx_outputs flat_map].
  rewrite !app_nil_r. change (nlen (@nil OutputData)) with 0. change (nlen [e]) with 1.
  set (suf := Append 8 0). set (S := OutputData_Serialize e) in *.
  unfold Context_Deserialize.
  assert (TOT : N.of_nat (length (key ++ nonce ++ Append 8 1 ++ S ++ suf)) < W64).
  { unfold suf. rewrite !app_length, !Append_length, K, NN. lia. }
  unfold rbind at 1. change (key ++ nonce ++ Append 8 1 ++ S ++ suf) with ([] ++ key ++ (nonce ++ Append 8 1 ++ S ++ suf)).
  change 0 with (N.of_nat (length (@nil N))) at 1.
  rewrite (dec_vector v 32 key) by (try (rewrite K; reflexivity); exact TOT). cbn [obind fst snd].
  unfold rbind at 1. cbn [app].
  replace (N.of_nat (length (@nil N)) + N.of_nat (length key)) with (N.of_nat (length key)) by reflexivity.
  unfold ReadBigInteger at 1. rewrite (dec_vector v 32 nonce) by (try (rewrite NN; reflexivity); exact TOT). cbn [obind fst snd].
  replace (N.of_nat (length key) + N.of_nat (length nonce)) with (N.of_nat (length (key ++ nonce))) by (rewrite app_length; lia).
  replace (key ++ nonce ++ Append 8 1 ++ S ++ suf) with ((key ++ nonce) ++ Append 8 1 ++ (S ++ suf)) in * by (rewrite <- !app_assoc; reflexivity).
  unfold rbind at 1. unfold ReadU64 at 1. rewrite (dec_be v 8 1) by (try reflexivity; exact TOT). cbn [obind fst snd].
  change (N.to_nat 1) with 1%nat. cbn [read_many].
  replace (N.of_nat (length (key ++ nonce)) + N.of_nat (length (Append 8 1))) with (N.of_nat (length ((key ++ nonce) ++ Append 8 1))) by (rewrite app_length; lia).
  replace ((key ++ nonce) ++ Append 8 1 ++ S ++ suf) with (((key ++ nonce) ++ Append 8 1) ++ S ++ suf) in * by (rewrite <- !app_assoc; reflexivity).
  destruct (od_steals v e suf F NI) with (pre := (key ++ nonce) ++ Append 8 1) as (id & R); [unfold suf; rewrite Append_length; lia | exact TOT |].
  fold S in R. unfold rbind at 1. unfold rbind at 1. rewrite R. cbn [obind fst snd]. unfold rbind at 1. unfold rret at 1. cbn [obind fst snd]. unfold rret at 1.
  cbn [obind fst snd]. unfold rbind at 1. unfold ReadU64.
  set (P := (key ++ nonce) ++ Append 8 1) in *.
  replace (P ++ S ++ suf) with ((P ++ S ++ firstn 4 suf) ++ skipn 4 suf) by (rewrite <- !app_assoc, (firstn_skipn 4 suf); reflexivity).
  replace (N.of_nat (length P) + N.of_nat (length S) + 4) with (N.of_nat (length (P ++ S ++ firstn 4 suf))).
  2:{ rewrite !app_length, firstn_length. unfold suf. rewrite Append_length. lia. }
  rewrite read_short; [reflexivity| |].
  - rewrite skipn_length. unfold suf. rewrite Append_length. lia.
  - rewrite <- !app_assoc, (firstn_skipn 4 suf). unfold P, suf. rewrite !app_length, !Append_length, K, NN. lia.
Qed.

(** * Wallet transactions *)
Lemma nonempty_kept o : o <> Some [] -> nonempty (value_or_empty o) = o.
Proof. destruct o as [[|c w]|]; intros H; [exfalso; apply H; reflexivity|reflexivity|reflexivity]. Qed.
Lemma quot_fits t : time_fits t -> (- 2 ^ (8 * Z.of_nat 8 - 1) <= ToInt64 t < 2 ^ (8 * Z.of_nat 8 - 1))%Z.
Proof.
  unfold time_fits, ToInt64. change (2 ^ (8 * Z.of_nat 8 - 1))%Z with 9223372036854775808%Z. change (2 ^ 63)%Z with 9223372036854775808%Z. intros H.
  pose proof (Z.quot_rem' t 1000000) as E.
  assert (R : (Z.abs (Z.rem t 1000000) < 1000000)%Z) by (apply Z.rem_bound_abs; lia).
  lia.
Qed.
Lemma ms_kept t : whole_ms t -> ToTimePoint (ToInt64 t) = t.
Proof. intros (m & ->). unfold ToTimePoint, ToInt64. rewrite Z.quot_mul by lia. reflexivity. Qed.

Section Tables.
Variable Blake2b : bytes -> bytes.
Variable GetOutputType : bytes -> N.
Variable uuid_to_string : bytes -> bytes.
Variable uuid_from_string : bytes -> option bytes.
Variable AESE : bytes -> bytes -> bytes -> bytes.
Variable AESD : bytes -> bytes -> bytes -> outcome bytes.
Let Ser := WalletTx_Serialize uuid_to_string.
Let De := WalletTx_Deserialize Blake2b GetOutputType uuid_from_string.

Lemma dec_opt {A} v (r : reader A) (enc : A -> bytes) o : match o with Some x => decodes v r (enc x) x | None => True end ->
  decodes v (let! has := ReadU8 in if has =? 1 then let! f := r in rret (Some f) else rret None)
    (match o with Some x => Append 1 1 ++ enc x | None => Append 1 0 end) o.
Proof.
  destruct o as [x|]; intros D.
  - eapply dec_bind; [apply dec_be; reflexivity|]. change (1 =? 1) with true. cbv iota. eapply dec_last; [exact D|reflexivity].
  - eapply dec_bind_end; [apply dec_be; reflexivity|]. change (0 =? 1) with false. cbv iota. apply dec_ret.
Qed.
Lemma rbind_assoc {A B C} (r : reader A) (f : A -> reader B) (k : B -> reader C) b : rbind (rbind r f) k b = rbind r (fun a => rbind (f a) k) b.
Proof. unfold rbind. destruct (r b) as [[a b']| |]; reflexivity. Qed.
Lemma decP_assoc {A B C} P v (r : reader A) (f : A -> reader B) (k : B -> reader C) bs c :
  decP P v (rbind (rbind r f) k) bs c -> decP P v (rbind r (fun a => rbind (f a) k)) bs c.
Proof. intros D pre suf HP L. rewrite <- rbind_assoc. apply D; assumption. Qed.
Lemma read_transaction t : wtx_fits Blake2b GetOutputType t -> wtx_plain t ->
  (forall u, wt_slateId t = Some u -> uuid_from_string (uuid_to_string u) = Some u /\ uuid_to_string u <> []) ->
  N.of_nat (length (Ser t)) < W64 ->
  omap fst (De (mkBB 0 (Ser t) 1)) = Ret t.
Proof.
  intros (H1 & H2 & H3 & H4 & H5 & H6 & H7 & H8 & H9 & H10) (P1 & P2 & P3 & P4 & P5) HU HL.
  apply decP_read; [|exact HL]. destruct t as [id ty sl ad ms cr co he cre deb fee tx pr].
  cbn [wt_id wt_type wt_slateId wt_address wt_message wt_created wt_confirmed wt_height wt_credited wt_debited wt_fee wt_transaction wt_proof] in *.
  unfold De, Ser, WalletTx_Serialize in *.
  cbn [wt_id wt_type wt_slateId wt_address wt_message wt_created wt_confirmed wt_height wt_credited wt_debited wt_fee wt_transaction wt_proof] in *.
  set (su := match sl with Some u => uuid_to_string u | None => [] end) in *.
  assert (LS : N.of_nat (length su) < W64 /\ N.of_nat (length (value_or_empty ad)) < W64 /\ N.of_nat (length (value_or_empty ms)) < W64).
  { unfold AppendVarStr in HL. rewrite !app_length in HL. lia. }
  destruct LS as (L1 & L2 & L3). clear HL. unfold WalletTx_Deserialize.
  eapply decP_bind; [apply dec_be; reflexivity|]. change (WALLET_TX_DATA_FORMAT <? WALLET_TX_DATA_FORMAT) with false.
  change (2 <=? WALLET_TX_DATA_FORMAT) with true. change (1 <=? WALLET_TX_DATA_FORMAT) with true. change (3 <=? WALLET_TX_DATA_FORMAT) with true. cbv iota.
  eapply decP_bind; [apply dec_be; exact H1|].
  eapply decP_bind; [apply dec_be; exact H2|].
  eapply decP_bind; [apply dec_varstr; exact L1|].
  assert (EU : match su with [] => None | _ => uuid_from_string su end = sl).
  { unfold su. destruct sl as [u|]; [|reflexivity]. destruct (HU u eq_refl) as [E NE]. destruct (uuid_to_string u); [contradiction|exact E]. }
  cbv zeta. rewrite EU.
  eapply decP_bind; [eapply dec_last; [apply dec_varstr; exact L2|apply nonempty_kept; exact P4]|].
  eapply decP_bind; [eapply dec_last; [apply dec_varstr; exact L3|apply nonempty_kept; exact P5]|].
  eapply decP_bind; [apply dec_signed; [lia|apply quot_fits; exact H3]|].
  eapply decP_bind.
  { apply dec_signed; [lia|]. destruct co as [c|]; [apply quot_fits; exact H4|cbn; lia]. }
  eapply decP_bind; [apply dec_be, value_fits; exact H5|].
  eapply decP_bind; [apply dec_be; exact H6|].
  eapply decP_bind; [apply dec_be; exact H7|].
  apply decP_assoc. eapply decP_bind; [apply dec_opt; destruct fee as [f|]; [apply dec_fee; exact H8|exact I]|].
  eapply decP_bind; [apply dec_opt; destruct pr as [p|]; [apply (dec_pproof (fun _ => None) (fun x => x)); exact H9|exact I]|].
  rewrite (ms_kept cr P1). rewrite nonzero_kept.
  assert (EH : forget_zero he = he) by (destruct he as [[|p]|]; [exfalso; apply P3; reflexivity|reflexivity|reflexivity]).
  rewrite EH.
  assert (EC : (if (match co with Some c => ToInt64 c | None => 0%Z end =? 0)%Z then None else Some (ToTimePoint match co with Some c => ToInt64 c | None => 0%Z end)) = co).
  { destruct co as [c|]; [|reflexivity]. destruct P2 as [W NZ]. rewrite (ms_kept c W).
    destruct (Z.eqb_spec (ToInt64 c) 0) as [E|E]; [|reflexivity]. exfalso. apply NZ. rewrite <- (ms_kept c W), E. reflexivity. }
  rewrite EC. destruct tx as [x|].
  - destruct H10 as [O B]. apply decP_more.
    + intros E. apply (f_equal (@length _)) in E. unfold Transaction_Serialize, AppendBigInteger in E. rewrite app_length, O in E. cbn in E. lia.
    + cbv iota. apply decP_of. eapply dec_last; [|reflexivity]. eapply dec_last; [apply dec_tx; assumption|reflexivity].
  - apply decP_no_more. cbv iota. eapply decP_bind_nil; [apply dec_ret|]. apply decP_of, dec_ret.
Qed.

Lemma read_old_transaction fmt t : of_format fmt t -> wtx_fits Blake2b GetOutputType t -> wtx_plain t ->
  (forall u, wt_slateId t = Some u -> uuid_from_string (uuid_to_string u) = Some u /\ uuid_to_string u <> []) ->
  N.of_nat (length (old_record uuid_to_string fmt t)) < W64 ->
  omap fst (De (mkBB 0 (old_record uuid_to_string fmt t) 1)) = Ret t.
Proof.
  intros (F & FP & FA & FM) (H1 & H2 & H3 & H4 & H5 & H6 & H7 & H8 & H9 & H10) (P1 & P2 & P3 & P4 & P5) HU HL.
  apply decP_read; [|exact HL]. destruct t as [id ty sl ad ms cr co he cre deb fee tx pr].
  cbn [wt_id wt_type wt_slateId wt_address wt_message wt_created wt_confirmed wt_height wt_credited wt_debited wt_fee wt_transaction wt_proof] in *.
  subst pr. unfold De, old_record in *.
  cbn [wt_id wt_type wt_slateId wt_address wt_message wt_created wt_confirmed wt_height wt_credited wt_debited wt_fee wt_transaction wt_proof] in *.
  set (su := match sl with Some u => uuid_to_string u | None => [] end) in *.
  change (match ad with Some a => a | None => [] end) with (value_or_empty ad) in *.
  change (match ms with Some a => a | None => [] end) with (value_or_empty ms) in *.
  change (match he with Some h => h | None => 0 end) with (value_or0 he) in *.
  change (Z.quot cr 1000000) with (ToInt64 cr) in *.
  change (match co with Some c => Z.quot c 1000000 | None => 0%Z end) with (match co with Some c => ToInt64 c | None => 0%Z end) in *.
  assert (L1 : N.of_nat (length su) < W64) by (unfold AppendVarStr in HL; rewrite !app_length in HL; lia).
  unfold WalletTx_Deserialize.
  eapply decP_bind; [apply dec_be; change (256 ^ N.of_nat 1) with 256; lia|].
  assert (Q0 : (WALLET_TX_DATA_FORMAT <? fmt) = false) by (apply N.ltb_ge; unfold WALLET_TX_DATA_FORMAT; lia). rewrite Q0.
  assert (Q3 : (3 <=? fmt) = false) by (apply N.leb_gt; lia). rewrite Q3.
  eapply decP_bind; [apply dec_be; exact H1|].
  eapply decP_bind; [apply dec_be; exact H2|].
  eapply decP_bind; [apply dec_varstr; exact L1|].
  assert (EU : match su with [] => None | _ => uuid_from_string su end = sl).
  { unfold su. destruct sl as [u|]; [|reflexivity]. destruct (HU u eq_refl) as [E NE]. destruct (uuid_to_string u); [contradiction|exact E]. }
  cbv zeta. rewrite EU.
  eapply decP_bind with (a := ad).
  { destruct (N.eqb_spec fmt 2) as [E|E].
    - assert (Q : (2 <=? fmt) = true) by (apply N.leb_le; lia). rewrite Q.
      eapply dec_last; [apply dec_varstr|apply nonempty_kept; exact P4]. unfold AppendVarStr in HL. rewrite !app_length in HL. lia.
    - assert (Q : (2 <=? fmt) = false) by (apply N.leb_gt; lia). rewrite Q, (FA E). apply dec_ret. }
  eapply decP_bind with (a := ms).
  { destruct (N.eqb_spec fmt 0) as [E|E].
    - assert (Q : (1 <=? fmt) = false) by (apply N.leb_gt; lia). rewrite Q, (FM E). apply dec_ret.
    - assert (Q : (1 <=? fmt) = true) by (apply N.leb_le; lia). rewrite Q.
      eapply dec_last; [apply dec_varstr|apply nonempty_kept; exact P5]. unfold AppendVarStr in HL. rewrite !app_length in HL. lia. }
  clear HL.
  eapply decP_bind; [apply dec_signed; [lia|apply quot_fits; exact H3]|].
  eapply decP_bind.
  { apply dec_signed; [lia|]. destruct co as [c|]; [apply quot_fits; exact H4|cbn; lia]. }
  eapply decP_bind; [apply dec_be, value_fits; exact H5|].
  eapply decP_bind; [apply dec_be; exact H6|].
  eapply decP_bind; [apply dec_be; exact H7|].
  apply decP_assoc. eapply decP_bind; [apply dec_opt; destruct fee as [f|]; [apply dec_fee; exact H8|exact I]|].
  eapply decP_bind_nil; [apply dec_ret|].
  rewrite (ms_kept cr P1). rewrite nonzero_kept.
  assert (EH : forget_zero he = he) by (destruct he as [[|p]|]; [exfalso; apply P3; reflexivity|reflexivity|reflexivity]).
  rewrite EH.
  assert (EC : (if (match co with Some c => ToInt64 c | None => 0%Z end =? 0)%Z then None else Some (ToTimePoint match co with Some c => ToInt64 c | None => 0%Z end)) = co).
  { destruct co as [c|]; [|reflexivity]. destruct P2 as [W NZ]. rewrite (ms_kept c W).
    destruct (Z.eqb_spec (ToInt64 c) 0) as [E|E]; [|reflexivity]. exfalso. apply NZ. rewrite <- (ms_kept c W), E. reflexivity. }
  rewrite EC. destruct tx as [x|].
  - destruct H10 as [O B]. apply decP_more.
    + intros E. apply (f_equal (@length _)) in E. unfold Transaction_Serialize, AppendBigInteger in E. rewrite app_length, O in E. cbn in E. lia.
    + cbv iota. apply decP_of. eapply dec_last; [|reflexivity]. eapply dec_last; [apply dec_tx; assumption|reflexivity].
  - apply decP_no_more. cbv iota. eapply decP_bind_nil; [apply dec_ret|]. apply decP_of, dec_ret.
Qed.

(** * Encryption *)
Hypothesis AES_inverse : forall data key iv, length iv = 16%nat -> AESD (AESE data key iv) key iv = Ret data.
Let Enc := Encrypt Blake2b AESE.
Let Dec := Decrypt Blake2b AESD.
Lemma decrypt_encrypt seed ty iv data : length iv = 16%nat -> N.of_nat (length (Enc seed ty iv data)) < W64 ->
  Dec seed ty (Enc seed ty iv data) = Ret data.
Proof.
  intros IV L. unfold Dec, Decrypt, Enc, Encrypt, AppendBigInteger, AppendByteVector, AppendLength in *. cbn [app] in *.
  apply decP_read; [|exact L].
  eapply decP_bind; [apply dec_be; reflexivity|]. change (negb (ENCRYPTION_FORMAT =? ENCRYPTION_FORMAT)) with false. cbv iota.
  eapply decP_bind; [apply dec_vector; rewrite IV; reflexivity|].
  set (c := AESE data (CreateSecureKey Blake2b seed ty) iv).
  intros pre suf HN HL. rewrite HN in *. unfold rbind. rewrite remaining by exact HL. rewrite app_nil_r in *.
  pose proof (dec_vector 1 (N.of_nat (length c)) c eq_refl pre []) as D. rewrite app_nil_r in D. rewrite D by exact HL.
  cbn [obind fst snd]. unfold lift. rewrite (AES_inverse data (CreateSecureKey Blake2b seed ty) iv IV : AESD c _ _ = _). reflexivity.
Qed.

(** * Tables *)
Section Upsert.
Context {A K : Type} (keq : K -> K -> bool) (dec : forall a b : K, {a = b} + {a <> b}) (key : A -> K) (enc : A -> bytes).
Hypothesis keq_ok : forall a b, keq a b = true <-> a = b.
(** the table holds, for each key, the last value written with it *)
Definition holds (l : list A) (t : list (K * bytes)) : Prop :=
  NoDup (map fst t) /\
  (forall k row, In (k, row) t -> exists a, last_with dec key k l = Some a /\ row = enc a) /\
  (forall k a, last_with dec key k l = Some a -> In (k, enc a) t).
Lemma last_app k l a : last_with dec key k (l ++ [a]) = if dec (key a) k then Some a else last_with dec key k l.
Proof.
  induction l as [|x l IH]; cbn [app last_with].
  - destruct (dec (key a) k); reflexivity.
  - rewrite IH. destruct (dec (key a) k); reflexivity.
Qed.
Lemma upsert_in (k : K) (r : bytes) (k' : K) (r' : bytes) (t : list (K * bytes)) : NoDup (map fst t) ->
  In (k', r') (upsert keq k r t) <-> (k' = k /\ r' = r) \/ (k' <> k /\ In (k', r') t).
Proof.
  induction t as [|[k0 r0] t IH]; intros ND; cbn [upsert].
  - split; [intros [E|[]]; injection E as -> ->; left; split; reflexivity|]. intros [[-> ->]|[_ []]]. left. reflexivity.
  - cbn [map fst] in ND. inversion ND as [|? ? NI ND']; subst. destruct (keq k0 k) eqn:Q.
    + apply keq_ok in Q. subst k0. split.
      * intros [E|E]; [injection E as -> ->; left; split; reflexivity|]. right. split; [|right; exact E].
        intros ->. apply NI. apply in_map_iff. exists (k, r'). split; [reflexivity|exact E].
      * intros [[-> ->]|[N [E|E]]]; [left; reflexivity| |right; exact E]. injection E as -> ->. contradiction.
    + assert (N0 : k0 <> k) by (intros E; apply keq_ok in E; congruence). split.
      * intros [E|E]; [injection E as -> ->; right; split; [exact N0|left; reflexivity]|].
        apply IH in E; [|exact ND']. destruct E as [E|[N E]]; [left; exact E|right; split; [exact N|right; exact E]].
      * intros [E|[N [E|E]]]; [right; apply IH; [exact ND'|left; exact E] | left; exact E | right; apply IH; [exact ND'|right; split; assumption]].
Qed.
Lemma upsert_nodup (k : K) (r : bytes) (t : list (K * bytes)) : NoDup (map fst t) -> NoDup (map fst (upsert keq k r t)).
Proof.
  induction t as [|[k0 r0] t IH]; intros ND; cbn [upsert map fst].
  - constructor; [intros []|constructor].
  - cbn [map fst] in ND. inversion ND as [|? ? NI ND']; subst. destruct (keq k0 k) eqn:Q; cbn [map fst].
    + apply keq_ok in Q. subst k0. exact ND.
    + constructor; [|exact (IH ND')]. intros E. apply in_map_iff in E. destruct E as ([k1 r1] & E1 & E2). cbn in E1. subst k1.
      apply upsert_in in E2; [|exact ND']. destruct E2 as [[-> _]|[_ E2]].
      * assert (T : keq k k = true) by (apply keq_ok; reflexivity). congruence.
      * apply NI. apply in_map_iff. exists (k0, r1). split; [reflexivity|exact E2].
Qed.
Lemma upsert_holds l t a : holds l t -> holds (l ++ [a]) (upsert keq (key a) (enc a) t).
Proof.
  intros (ND & H1 & H2). split; [apply upsert_nodup; exact ND|]. split.
  - intros k row E. apply upsert_in in E; [|exact ND]. rewrite last_app. destruct E as [[-> ->]|[N E]].
    + exists a. destruct (dec (key a) (key a)); [split; reflexivity|contradiction].
    + destruct (dec (key a) k) as [Q|Q]; [symmetry in Q; contradiction|]. apply H1. exact E.
  - intros k a' E. rewrite last_app in E. apply upsert_in; [exact ND|]. destruct (dec (key a) k) as [Q|Q].
    + injection E as <-. left. split; [symmetry; exact Q|reflexivity].
    + right. split; [intros ->; contradiction|]. apply H2. exact E.
Qed.
Lemma upserts_hold l : holds l (fold_left (fun t a => upsert keq (key a) (enc a) t) l []).
Proof.
  induction l as [|a l IH] using rev_ind.
  - split; [constructor|]. split; [intros ? ? []|discriminate].
  - rewrite fold_left_app. cbn [fold_left]. apply upsert_holds, IH.
Qed.
Lemma last_in k l a : last_with dec key k l = Some a -> In a l /\ key a = k.
Proof.
  induction l as [|x l IH]; cbn [last_with]; [discriminate|]. destruct (last_with dec key k l) as [y|].
  - intros E. injection E as ->. destruct (IH eq_refl) as [E1 E2]. split; [right; exact E1|exact E2].
  - destruct (dec (key x) k) as [Q|]; [|discriminate]. intros E. injection E as ->. split; [left; reflexivity|exact Q].
Qed.
End Upsert.

Lemma collect_rows {R B} (f : R -> outcome B) l (g : R -> B) : (forall r, In r l -> f r = Ret (g r)) -> collect f l = Ret (map g l).
Proof.
  induction l as [|r l IH]; intros H; [reflexivity|]. cbn [collect map]. rewrite (H r (or_introl eq_refl)). cbn [obind].
  rewrite IH by (intros r' I'; apply H; right; exact I'). reflexivity.
Qed.
(** rows that hold what [dec1] reads back as [g] *)
Lemma collect_map {R A} (f : R -> outcome A) (l : list R) :
  (forall r, In r l -> exists a, f r = Ret a) -> exists as_, collect f l = Ret as_ /\ Forall2 (fun r a => f r = Ret a) l as_.
Proof.
  induction l as [|r l IH]; intros H; [exists []; split; [reflexivity|constructor]|].
  destruct (H r (or_introl eq_refl)) as (a & E). destruct IH as (as_ & E2 & F); [intros r' I'; apply H; right; exact I'|].
  exists (a :: as_). cbn [collect]. rewrite E. cbn [obind]. rewrite E2. split; [reflexivity|constructor; assumption].
Qed.
End Tables.

Section Main.
Variable Blake2b : bytes -> bytes.
Variable GetOutputType : bytes -> N.
Variable uuid_to_string : bytes -> bytes.
Variable uuid_from_string : bytes -> option bytes.
Variable AESE : bytes -> bytes -> bytes -> bytes.
Variable AESD : bytes -> bytes -> bytes -> outcome bytes.
Hypothesis AES_inverse : forall data key iv, length iv = 16%nat -> AESD (AESE data key iv) key iv = Ret data.

Lemma holds_collect {A K B} (dec : forall a b : K, {a = b} + {a <> b}) (key : A -> K) (enc : A -> bytes) (l : list A) (t : list (K * bytes))
    (f : K * bytes -> outcome B) (h : A -> B) (kk : B -> K) :
  holds dec key enc l t -> (forall a, In a l -> f (key a, enc a) = Ret (h a)) -> (forall a, In a l -> kk (h a) = key a) ->
  exists bs, collect f t = Ret bs /\ NoDup (map kk bs) /\
    forall b, In b bs <-> option_map h (last_with dec key (kk b) l) = Some b.
Proof.
  intros (ND & H1 & H2) F KK.
  destruct (collect_map f t) as (bs & C & F2).
  { intros [k row] I1. destruct (H1 k row I1) as (a & E & ->). destruct (last_in _ _ _ _ _ E) as [I2 <-]. exists (h a). apply F, I2. }
  assert (R : forall k row b, In (k, row) t -> f (k, row) = Ret b -> kk b = k /\ option_map h (last_with dec key (kk b) l) = Some b).
  { intros k row b I1 E1. destruct (H1 k row I1) as (a & E & ->). destruct (last_in _ _ _ _ _ E) as [I2 <-].
    rewrite (F a I2) in E1. injection E1 as <-. rewrite (KK a I2), E. split; reflexivity. }
  exists bs. split; [exact C|].
  assert (M : map kk bs = map fst t).
  { clear C ND H2. induction F2 as [|[k row] b t' bs' E F2 IH]; [reflexivity|]. cbn [map fst].
    rewrite (proj1 (R k row b (or_introl eq_refl) E)), IH; [reflexivity| |].
    - intros k' row' I'. apply H1. right. exact I'.
    - intros k' row' b' I'. apply R. right. exact I'. }
  split; [rewrite M; exact ND|]. intros b. split.
  - intros I1. clear M C ND H2 H1. induction F2 as [|[k row] b0 t' bs' E F2 IH]; [destruct I1|].
    destruct I1 as [->|I1]; [apply (R k row b (or_introl eq_refl) E)|]. apply IH; [|exact I1]. intros k' row' b' I'. apply R. right. exact I'.
  - intros E. destruct (last_with dec key (kk b) l) as [a|] eqn:Q; [|discriminate]. cbn in E. injection E as E.
    pose proof (H2 _ _ Q) as I1. destruct (last_in _ _ _ _ _ Q) as [I2 EK]. rewrite <- EK in I1. pose proof (F a I2) as FA.
    clear M C ND H1 H2 R Q EK. induction F2 as [|r b0 t' bs' E0 F2 IH]; [destruct I1|].
    destruct I1 as [->|I1]; [left; congruence|right; apply IH; exact I1].
Qed.
Lemma fold_concat {A T} (f : T -> A -> T) ls t : fold_left (fun t l => fold_left f l t) ls t = fold_left f (concat ls) t.
Proof. revert t. induction ls as [|l ls IH]; intros t; [reflexivity|]. cbn [fold_left concat]. rewrite fold_left_app. apply IH. Qed.
Lemma sbytes_eqb a b : SlateCodecModel.bytes_eqb a b = true <-> a = b.
Proof. unfold SlateCodecModel.bytes_eqb. destruct (list_eq_dec N.eq_dec a b); split; intros; congruence. Qed.

Definition out_key (o : OutputData * bytes) : bytes := o_commitment (od_output (fst o)).
Definition out_row seed (o : OutputData * bytes) := Encrypt Blake2b AESE seed (chars "OUTPUT") (snd o) (OutputData_Serialize (fst o)).
Lemma outputs_hold seed saves : holds (list_eq_dec N.eq_dec) out_key (out_row seed) (concat saves)
  (fold_left (fun t l => AddOutputs Blake2b AESE seed l t) saves []).
Proof. unfold AddOutputs. rewrite fold_concat. apply upserts_hold. exact sbytes_eqb. Qed.
Lemma output_row seed o : output_fits (fst o) -> length (snd o) = 16%nat -> row_short (out_row seed o) ->
  (let* d := Decrypt Blake2b AESD seed (chars "OUTPUT") (out_row seed o) in omap fst (OutputData_Deserialize (mkBB 0 d 1))) = Ret (output_kept (fst o)).
Proof.
  intros F IV L. unfold out_row. rewrite (decrypt_encrypt Blake2b AESE AESD AES_inverse) by assumption. cbn [obind]. apply read_output, F.
Qed.
Lemma collect_throws {R B} (f : R -> outcome B) l r : In r l -> f r = Throw -> (forall x, In x l -> f x <> Fault) -> collect f l = Throw.
Proof.
  induction l as [|x l IH]; intros I1 E NF; [destruct I1|]. cbn [collect]. pose proof (NF x (or_introl eq_refl)) as N0.
  destruct (f x) as [b| |] eqn:Q; [|reflexivity|contradiction]. cbn [obind]. destruct I1 as [->|I1]; [congruence|].
  rewrite (IH I1 E) by (intros y I'; apply NF; right; exact I'). reflexivity.
Qed.
Lemma hardened_read e : (exists i, In i (od_path e) /\ 2147483648 <= i) -> N.of_nat (length (OutputData_Serialize e)) < W64 ->
  OutputData_Deserialize (mkBB 0 (OutputData_Serialize e) 1) = Throw.
Proof.
  clear AESE AESD AES_inverse Blake2b GetOutputType uuid_to_string uuid_from_string. intros HP HL. unfold OutputData_Serialize in *.
  set (rest := AppendBigInteger (od_blind e) ++ _) in *.
  unfold OutputData_Deserialize. unfold rbind at 1.
  change (Append 1 OUTPUT_DATA_FORMAT ++ AppendVarStr (Format (od_path e)) ++ rest) with ([] ++ Append 1 OUTPUT_DATA_FORMAT ++ (AppendVarStr (Format (od_path e)) ++ rest)).
  change 0 with (N.of_nat (length (@nil N))) at 1.
  unfold ReadU8. rewrite (dec_be 1 1 OUTPUT_DATA_FORMAT) by (try reflexivity; exact HL). cbn [obind fst snd].
  change (OUTPUT_DATA_FORMAT <? OUTPUT_DATA_FORMAT) with false. cbv iota. cbn [app]. unfold rbind at 1.
  replace (N.of_nat (length (@nil N)) + N.of_nat (length (Append 1 OUTPUT_DATA_FORMAT))) with (N.of_nat (length (Append 1 OUTPUT_DATA_FORMAT))) by reflexivity.
  rewrite dec_varstr; [cbn [obind fst snd]; unfold rbind at 1; unfold lift; rewrite (text_lost _ HP); reflexivity| |exact HL].
  unfold AppendVarStr in HL. rewrite !app_length in HL. lia.
Qed.

Definition tx_key (x : WalletTx * bytes) : Z := to_int (wt_id (fst x)).
Definition tx_row seed (x : WalletTx * bytes) := Encrypt Blake2b AESE seed (chars "WALLET_TX") (snd x) (WalletTx_Serialize uuid_to_string (fst x)).
Lemma txs_hold seed saves : holds Z.eq_dec tx_key (tx_row seed) (concat saves)
  (fold_left (fun t l => AddTransactions Blake2b uuid_to_string AESE seed l t) saves []).
Proof. unfold AddTransactions. rewrite fold_concat. apply upserts_hold. exact Z.eqb_eq. Qed.
Lemma to_int_inj a b : a < W32 -> b < W32 -> to_int a = to_int b -> a = b.
Proof.
  clear AESE AESD AES_inverse Blake2b GetOutputType uuid_to_string uuid_from_string. intros A B. unfold to_int. rewrite !N.mod_small by assumption.
  destruct (N.ltb_spec a 2147483648), (N.ltb_spec b 2147483648); lia.
Qed.
Lemma last_tx (l : list (WalletTx * bytes)) id : id < W32 -> Forall (fun x => wt_id (fst x) < W32) l ->
  last_with Z.eq_dec tx_key (to_int id) l = last_with N.eq_dec (fun x => wt_id (fst x)) id l.
Proof.
  intros I1 F. induction F as [|x l H F IH]; [reflexivity|]. cbn [last_with]. rewrite IH.
  destruct (last_with N.eq_dec _ id l); [reflexivity|]. unfold tx_key.
  destruct (Z.eq_dec (to_int (wt_id (fst x))) (to_int id)) as [E|E], (N.eq_dec (wt_id (fst x)) id) as [E2|E2]; try reflexivity.
  - exfalso. apply E2. apply to_int_inj; assumption.
  - exfalso. apply E. rewrite E2. reflexivity.
Qed.
Lemma tx_row_read seed x : wtx_good Blake2b GetOutputType uuid_to_string uuid_from_string (fst x) -> length (snd x) = 16%nat -> row_short (tx_row seed x) ->
  ReadTransaction Blake2b GetOutputType uuid_from_string AESD seed (tx_row seed x) = Ret (fst x).
Proof.
  intros (F & P & U & L) IV RL. unfold ReadTransaction, tx_row.
  rewrite (decrypt_encrypt Blake2b AESE AESD AES_inverse) by assumption. cbn [obind]. apply read_transaction; assumption.
Qed.
Lemma find_row {R} (k : Z) (t : list (Z * R)) : NoDup (map fst t) ->
  match find (fun row => (fst row =? k)%Z) t with
  | Some row => In row t /\ fst row = k
  | None => forall r, ~ In (k, r) t
  end.
Proof.
  intros _. destruct (find (fun row => (fst row =? k)%Z) t) as [row|] eqn:Q.
  - apply find_some in Q. destruct Q as [I1 E]. split; [exact I1|]. apply Z.eqb_eq. exact E.
  - intros r I1. apply (find_none _ _ Q) in I1. cbn in I1. rewrite Z.eqb_refl in I1. discriminate.
Qed.
End Main.
