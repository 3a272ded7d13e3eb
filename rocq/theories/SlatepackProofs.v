(** Proofs about slatepack addresses and messages. *)
From Verif Require Import Base Bytes FileModel SerialModel SerialSpec SerialProofs CodecProofs TextModel Bech32Model Bech32Spec Bech32Poly Bech32Proofs Bech32Text Bech32Four SlatepackModel SlateCodecProofs.
Local Open Scope N_scope.

Lemma text_lower hrc vals : lower hrc = hrc -> Forall five vals -> lower (text hrc vals) = text hrc vals.
Proof.
  intros Hh Fv. rewrite lower_map in *. unfold text. rewrite map_app. cbn [map]. rewrite Hh. change (LowerCase 49) with 49. f_equal. f_equal.
  rewrite map_map. apply map_ext_in. intros v Hi.
  assert (G : Forall five (vals ++ CreateChecksum hrc vals)) by (apply Forall_app; split; [exact Fv|apply checksum_five]). rewrite Forall_forall in G.
  apply (enc_ok v (G v Hi)).
Qed.
Lemma text_printable hrc vals : printable hrc -> Forall five vals -> printable (text hrc vals).
Proof.
  intros Hh Fv. unfold printable, text in *. apply Forall_app. split; [exact Hh|]. constructor; [lia|].
  rewrite Forall_forall. intros c Hi. apply in_map_iff in Hi. destruct Hi as (v & <- & Hi).
  assert (G : Forall five (vals ++ CreateChecksum hrc vals)) by (apply Forall_app; split; [exact Fv|apply checksum_five]). rewrite Forall_forall in G.
  apply (enc_ok v (G v Hi)).
Qed.
Lemma text_length hrc data : is_bytes data -> nlen data = 32 -> nlen (text hrc (ToBase32 data)) = nlen hrc + 59.
Proof.
  intros Hb Hl. destruct (to32_regrouped data Hb) as (_ & pad & Hp & E & _). unfold text, nlen in *.
  rewrite app_length. cbn [length]. rewrite map_length, app_length, checksum_length. lia.
Qed.
Lemma hrc_ok : lower HRC = HRC /\ printable HRC /\ HRC <> [] /\ nlen HRC = 4.
Proof. split; [reflexivity|]. split; [|split; [discriminate|reflexivity]]. unfold printable. cbn. repeat constructor; lia. Qed.

Lemma address_text data : is_bytes data -> nlen data = 32 ->
  exists t, SlatepackAddress_ToString data = Ret t /\ nlen t = 63 /\ lower t = t /\ printable t.
Proof.
  intros Hb Hl. unfold SlatepackAddress_ToString, Bech32Address_ToString. pose proof (to32_five data Hb) as Fv.
  exists (text HRC (ToBase32 data)). split; [apply Encode_text; exact Fv|]. destruct hrc_ok as (H1 & H2 & _ & H4).
  split; [rewrite text_length, H4 by assumption; reflexivity|]. split; [apply text_lower; assumption|apply text_printable; assumption].
Qed.
Lemma printable_lower t : printable t -> printable (lower t).
Proof. unfold printable. rewrite lower_map. intros H. apply Forall_forall. intros c Hi. apply in_map_iff in Hi. destruct Hi as (x & <- & Hi). rewrite Forall_forall in H. apply lower_range, H, Hi. Qed.

Section S.
Variable IsValid : bytes -> bool.

Lemma parse_exact t k : SlatepackAddress_Parse IsValid t = Ret k <->
  printable t /\ one_case t /\ nlen t <= 90 /\ is_bytes k /\ nlen k = 32 /\ IsValid k = true /\
  exists prefix, prefix <> [] /\ Bech32Address_ToString prefix k = Ret (lower t).
Proof.
  unfold SlatepackAddress_Parse, ToPubKey. split.
  - destruct (Bech32Address_Parse t) as [[h d]| |] eqn:P; cbn [obind snd]; try discriminate.
    destruct (nlen d =? 32) eqn:L; cbn [negb]; [|discriminate]. destruct (IsValid d) eqn:V; cbn [negb]; [|discriminate].
    intros E. injection E as ->. apply Parse_exact in P. destruct P as (P1 & P2 & P3 & P4 & P5 & P6 & P7). apply N.eqb_eq in L.
    repeat split; auto. exists h. auto.
  - intros (H1 & H2 & H3 & H4 & H5 & H6 & h & H7 & H8).
    rewrite (proj2 (Parse_exact t h k)). 2:{ repeat split; auto. intros ->. discriminate H5. }
    cbn [obind snd]. rewrite H5, H6. reflexivity.
Qed.

Definition good_address (k : bytes) : Prop := is_bytes k /\ nlen k = 32 /\ IsValid k = true.

Lemma address_parse k : good_address k -> exists t, SlatepackAddress_ToString k = Ret t /\ nlen t = 63 /\ SlatepackAddress_Parse IsValid t = Ret k.
Proof.
  intros (Hb & Hl & Hv). destruct (address_text k Hb Hl) as (t & E & L & Lo & P). exists t. split; [exact E|]. split; [exact L|].
  apply parse_exact. repeat split; auto; [left; symmetry; exact Lo|lia|]. exists HRC. split; [apply hrc_ok|]. rewrite Lo. exact E.
Qed.
Lemma address_codec v k : good_address k -> exists bs, SlatepackAddress_Serialize k = Ret bs /\ length bs = 64%nat /\
  decodes v (SlatepackAddress_Deserialize IsValid) bs k.
Proof.
  intros G. destruct (address_parse k G) as (t & E & L & P). unfold SlatepackAddress_Serialize. rewrite E. cbn [obind]. rewrite L.
  exists (Append 1 (63 mod 256) ++ t). split; [reflexivity|]. split; [rewrite app_length, Append_length; unfold nlen in L; lia|].
  unfold SlatepackAddress_Deserialize. eapply dec_bind; [apply dec_be; reflexivity|].
  apply dec_bind_end with (a := t); [apply dec_vector; unfold nlen in L; exact L|]. intros pre suf _. rewrite P. cbn. rewrite N.add_0_r. reflexivity.
Qed.
Lemma addresses_codec v l : Forall good_address l -> exists bs, serialize_addresses l = Ret bs /\ length bs = (64 * length l)%nat /\
  decodes v (read_many (SlatepackAddress_Deserialize IsValid) (length l)) bs l.
Proof.
  induction 1 as [|k l Hk _ (bs & E & L & D)]; cbn [serialize_addresses length read_many].
  - exists []. split; [reflexivity|]. split; [reflexivity|]. apply dec_ret.
  - destruct (address_codec v k Hk) as (x & Ex & Lx & Dx). rewrite Ex, E. cbn [obind]. exists (x ++ bs). split; [reflexivity|].
    split; [rewrite app_length; lia|]. eapply dec_bind; [exact Dx|]. eapply dec_last; [exact D|reflexivity].
Qed.
Lemma dec_inner {A} v (r : reader A) bs a : N.of_nat (length bs) < W64 -> decodes 1 r bs a -> decodes v (inner r bs) [] a.
Proof.
  intros L D pre suf _. unfold inner. specialize (D [] [] ltac:(cbn; rewrite app_nil_r; exact L)). cbn [app length] in D. rewrite app_nil_r in D.
  change (N.of_nat 0) with 0 in D. rewrite D. cbn [app length]. rewrite N.add_0_r. reflexivity.
Qed.

(** ** Reading arbitrary bytes *)
Lemma parse_no_fault t : SlatepackAddress_Parse IsValid t <> Fault.
Proof.
  unfold SlatepackAddress_Parse, Bech32Address_Parse, ToPubKey. destruct (Decode_cases t) as [(h & v & -> & D)|[-> _]]; cbn [obind fst snd]; [|discriminate].
  destruct h; [discriminate|]. destruct v as [|v0 v]; [discriminate|]. unfold FromBase32.
  pose proof (from32_rd (v0 :: v) [] 0 0 []) as F. specialize (F ltac:(split; [lia|constructor|reflexivity|reflexivity])).
  destruct (forallb _ _); [destruct F as (a & b & r & -> & _)|rewrite F; discriminate]. cbn [obind].
  destruct (_ || _)%bool; cbn [obind snd]; [discriminate|]. destruct (negb _); [discriminate|]. destruct (negb _); discriminate.
Qed.
Lemma safe_address : safe (SlatepackAddress_Deserialize IsValid).
Proof.
  unfold SlatepackAddress_Deserialize, ReadU8. apply safe_bind_post with (fun e => e < 256); [safe_step|apply u8_bound|]. intros n Hn.
  apply safe_bind; [apply safe_vector; rewrite p63; lia|]. intros s b G B. pose proof (parse_no_fault s) as P.
  destruct (SlatepackAddress_Parse IsValid s); [|exact Logic.I|contradiction]. destruct G. repeat split; lia.
Qed.
Lemma safe_inner {A} (r : reader A) data : safe r -> is_bytes data -> nlen data < 2 ^ 63 -> safe (inner r data).
Proof.
  intros H B L b G Bb. unfold inner. specialize (H (mkBB 0 data 1) ltac:(split; [cbn; lia|exact L]) B).
  destruct (r (mkBB 0 data 1)) as [[a x]| |]; [|exact Logic.I|contradiction]. destruct G. repeat split; lia.
Qed.
Lemma fault_bind {A B} (r : reader A) (k : A -> reader B) R b : safe r -> consumes r R -> good_buffer b -> is_bytes (m_bytes b) ->
  rbind r k b = Fault -> exists a b' c, k a b' = Fault /\ good_buffer b' /\ is_bytes (m_bytes b') /\ is_bytes c /\ R (m_protocolVersion b) a c /\
    skipn (N.to_nat (m_index b)) (m_bytes b) = c ++ skipn (N.to_nat (m_index b')) (m_bytes b') /\ nlen (m_bytes b') = nlen (m_bytes b).
Proof.
  intros Hs Hc G Bb E. unfold rbind in E. specialize (Hs b G Bb). destruct (r b) as [[a b']| |] eqn:Er; cbn [obind fst snd] in E; [|discriminate|contradiction].
  destruct (Hc b a b' G Bb Er) as (F1 & F2 & F3 & c & C1 & C2 & C3 & C4). exists a, b', c. rewrite F1. repeat split; auto; [rewrite F1; lia|rewrite F1; apply G].
Qed.
Lemma safe_metadata : safe (let! md := Metadata_Deserialize IsValid in let! payload := ReadRemainingBytes in rret (md, payload)).
Proof.
  assert (SR : safe ReadRemainingBytes).
  { intros b [G1 G2] B. unfold ReadRemainingBytes, GetRemainingSize. rewrite p63 in G2.
    assert (E1 : sub64 (nlen (m_bytes b)) (m_index b) = nlen (m_bytes b) - m_index b) by (unfold nlen; rewrite sub64_small; lia). rewrite E1.
    assert (E2 : add64 (m_index b) (nlen (m_bytes b) - m_index b) = nlen (m_bytes b)) by (unfold nlen; rewrite add64_small; lia). rewrite E2.
    assert (E3 : (m_index b <=? nlen (m_bytes b)) = true) by (unfold nlen; lia). rewrite E3, N.leb_refl. cbn. repeat split; unfold nlen; lia. }
  apply safe_bind; [|intros; apply safe_bind; [exact SR|intros; apply safe_ret]].
  unfold Metadata_Deserialize, ReadU32. apply safe_bind_post with (fun e => e < 4294967296); [safe_step| |].
  { intros b a b' E G B. destruct (be_inv 4 b a b' G ltac:(lia) B E) as (A1 & A2 & A3 & A4 & A5 & A6). exact A5. }
  intros n Hn. apply safe_bind_post with (fun d => is_bytes d /\ nlen d = n); [apply safe_vector; rewrite p63; lia| |].
  { intros b a b' E G B. destruct (con_vector n ltac:(rewrite p63; lia) b a b' G B E) as (_ & _ & _ & c & _ & C & _ & C2 & C3). subst c. auto. }
  intros d [Bd Ld]. apply safe_inner; [|exact Bd|rewrite p63; lia]. unfold ReadU16. apply safe_bind; [safe_step|]. intros fl. apply safe_bind.
  { destruct (N.testbit fl 0); [apply safe_address|apply safe_ret]. }
  intros s. apply safe_bind; [|intros; apply safe_ret]. destruct (N.testbit fl 1); [|apply safe_ret]. apply safe_bind; [safe_step|].
  intros cnt. apply safe_many, safe_address.
Qed.

(** ** Round trips of messages *)
Variable keypair : Type.
Variable AgeEncrypt : list bytes -> bytes -> outcome bytes.
Variable AgeDecrypt : keypair -> bytes -> outcome bytes.

Lemma to_encrypt_read m : good_address (m_sender m) -> Forall good_address (m_recipients m) -> nlen (m_recipients m) <= 65535 ->
  nlen (m_payload m) < 2 ^ 63 ->
  exists x, to_encrypt m = Ret x /\
    omap fst ((let! md := Metadata_Deserialize IsValid in let! payload := ReadRemainingBytes in rret (md, payload)) (mkBB 0 x 1)) =
    Ret ((m_sender m, m_recipients m), m_payload m).
Proof.
  intros Hs Hr Hn Hp. unfold to_encrypt. destruct (address_codec 1 _ Hs) as (s & Es & Ls & Ds). rewrite Es. cbn [obind].
  assert (Q : exists rest flags, recipients_bytes (m_recipients m) = Ret rest /\
     (match m_recipients m with [] => 1 | _ => 3 end) = flags /\ (length rest <= 2 + 64 * length (m_recipients m))%nat /\
     flags < 65536 /\ N.testbit flags 0 = true /\
     decodes 1 (if N.testbit flags 1 then let! n := ReadU16 in read_many (SlatepackAddress_Deserialize IsValid) (N.to_nat n) else rret []) rest (m_recipients m)).
  { destruct (m_recipients m) as [|r l] eqn:R.
    - exists [], 1. repeat split; [cbn; lia|]. apply dec_ret.
    - assert (Hlt : (65535 <? nlen (r :: l)) = false) by lia. unfold recipients_bytes. rewrite Hlt. destruct (addresses_codec 1 _ Hr) as (x & Ex & Lx & Dx). rewrite Ex. cbn [obind].
      exists (Append 2 (nlen (r :: l) mod W16) ++ x), 3. repeat split; [rewrite app_length, Append_length; lia|].
      cbn [N.testbit Pos.testbit]. rewrite N.mod_small by lia. eapply dec_bind; [apply dec_be; change (256 ^ N.of_nat 2) with 65536; lia|].
      cbn beta. replace (N.to_nat (nlen (r :: l))) with (length (r :: l)) by (unfold nlen; lia). exact Dx. }
  destruct Q as (rest & flags & Er & Ef & Lr & Lf & T0 & Dr). rewrite Er, Ef. cbn [obind]. eexists. split; [reflexivity|].
  set (md := Append 2 flags ++ s ++ rest). unfold AppendByteVector, AppendLength. cbn [app].
  assert (Lm : nlen md < 4294967296). { unfold md, nlen in *. rewrite !app_length, Append_length. lia. }
  assert (D : decodes 1 (Metadata_Deserialize IsValid) (Append 4 (nlen md) ++ md) (m_sender m, m_recipients m)).
  { unfold Metadata_Deserialize. eapply dec_bind; [apply dec_be; exact Lm|]. apply dec_bind_end with (a := md); [apply dec_vector; reflexivity|].
    apply dec_inner; [unfold nlen in Lm; lia|]. unfold md. eapply dec_bind; [apply dec_be; exact Lf|]. cbn beta. rewrite T0.
    eapply dec_bind; [exact Ds|]. eapply dec_last; [exact Dr|reflexivity]. }
  assert (W : nlen md mod W32 = nlen md) by (apply N.mod_small; exact Lm).
  match goal with |- context [Append 4 ?q] => replace q with (nlen md) by (first [reflexivity | symmetry; exact W]) end.
  pose proof p63 as P63. rewrite P63 in Hp.
  assert (LL : N.of_nat (length (Append 4 (nlen md) ++ md ++ m_payload m)) < W64).
  { rewrite !app_length, Append_length. unfold nlen in *. lia. }
  specialize (D [] (m_payload m)). cbn [app length] in D. rewrite <- app_assoc in D. specialize (D LL). change (N.of_nat 0) with 0 in D.
  unfold rbind at 1. rewrite <- app_assoc. rewrite D. cbn [obind fst snd]. unfold rbind. unfold ReadRemainingBytes, GetRemainingSize. cbn [m_index m_bytes m_protocolVersion].
  set (pre := Append 4 (nlen md) ++ md) in *. rewrite (app_assoc (Append 4 (nlen md)) md). fold pre.
  rewrite app_assoc in LL. fold pre in LL. rewrite app_length in LL.
  assert (E1 : sub64 (nlen (pre ++ m_payload m)) (0 + N.of_nat (length pre)) = nlen (m_payload m)).
  { unfold nlen. rewrite app_length. rewrite sub64_small; lia. }
  rewrite E1. assert (E2 : add64 (0 + N.of_nat (length pre)) (nlen (m_payload m)) = nlen (pre ++ m_payload m)).
  { unfold nlen. rewrite app_length. rewrite add64_small; lia. }
  rewrite E2. assert (E3 : (0 + N.of_nat (length pre) <=? nlen (pre ++ m_payload m)) = true) by (unfold nlen; rewrite app_length; lia).
  rewrite E3, N.leb_refl. cbn [andb obind fst snd omap]. repeat f_equal.
  unfold rret. cbn [obind omap fst]. repeat f_equal.
  replace (nlen (pre ++ m_payload m) - (0 + N.of_nat (length pre))) with (nlen (m_payload m)) by (unfold nlen; rewrite app_length; lia).
  pose proof (slice_mid pre (m_payload m) []) as SM. rewrite app_nil_r in SM. rewrite N.add_0_l. exact SM.
Qed.

(** What is read from the bytes of a message before any decryption. *)
Definition on_wire (m : SlatepackMessage) (payload : bytes) : SlatepackMessage :=
  mkMessage (m_major m) (m_minor m) (m_mode m)
    (if (m_mode m =? PLAINTEXT) then m_sender m else repeat 0 32) [] payload.
Lemma wire_read m payload opt : m_major m < 256 -> m_minor m < 256 -> m_mode m < 256 -> nlen payload < 2 ^ 63 ->
  let has := ((m_mode m =? PLAINTEXT) && negb (SlatepackAddress_IsNull (m_sender m)))%bool in
  (has = true -> good_address (m_sender m)) -> nlen (m_sender m) = 32 ->
  (if has then SlatepackAddress_Serialize (m_sender m) else Ret []) = Ret opt ->
  decodes 1 (Message_Read IsValid)
    (Append 1 (m_major m) ++ Append 1 (m_minor m) ++ Append 1 (m_mode m) ++ Append 2 (if has then 1 else 0) ++
       AppendByteVector opt LenU32 ++ AppendByteVector payload LenU64) (on_wire m payload).
Proof.
  intros H1 H2 H3 H4 has H5 H6 Eo. pose proof p63 as P63. rewrite P63 in H4. unfold Message_Read.
  do 3 (eapply dec_bind; [apply dec_be; assumption|]). eapply dec_bind; [apply dec_be; destruct has; reflexivity|]. unfold AppendByteVector, AppendLength.
  assert (Lo : nlen opt <= 64 /\ (has = true -> decodes 1 (SlatepackAddress_Deserialize IsValid) opt (m_sender m))).
  { destruct has eqn:Hh.
    - destruct (address_codec 1 _ (H5 eq_refl)) as (bs & E & L & D). rewrite E in Eo. injection Eo as <-. split; [unfold nlen; lia|auto].
    - injection Eo as <-. split; [cbn; lia|discriminate]. }
  destruct Lo as [Lo Do]. rewrite <- app_assoc.
  eapply dec_bind with (a := nlen opt). { rewrite N.mod_small by lia. apply dec_be. change (256 ^ N.of_nat 4) with 4294967296. lia. }
  eapply dec_bind; [apply dec_vector; reflexivity|]. cbn beta.
  assert (Dn : decodes 1 (if N.testbit (if has then 1 else 0) 0 then inner (SlatepackAddress_Deserialize IsValid) opt else rret (repeat 0 32)) []
       (if m_mode m =? PLAINTEXT then m_sender m else repeat 0 32)).
  { destruct has eqn:Hh; cbn [N.testbit Pos.testbit]; unfold has in Hh.
    - apply andb_true_iff in Hh. destruct Hh as [Hm _]. rewrite Hm. apply dec_inner; [unfold nlen in Lo; lia|]. apply Do. reflexivity.
    - apply andb_false_iff in Hh. destruct Hh as [Hm|Hm]; [rewrite Hm; apply dec_ret|].
      apply negb_false_iff in Hm. unfold SlatepackAddress_IsNull in Hm. apply Bytes.bytes_eqb_spec in Hm. rewrite Hm.
      destruct (m_mode m =? PLAINTEXT); apply dec_ret. }
  eapply dec_bind_nil; [exact Dn|]. eapply dec_bind with (a := nlen payload).
  { rewrite ?N.mod_small by lia. apply dec_be. change (256 ^ N.of_nat 8) with 18446744073709551616. lia. }
  eapply dec_last; [apply dec_vector; reflexivity|]. reflexivity.
Qed.

Lemma read_whole {A} (r : reader A) bs a : decodes 1 r bs a -> nlen bs < W64 -> exists b', r (mkBB 0 bs 1) = Ret (a, b').
Proof.
  intros D L. specialize (D [] []). cbn [app length] in D. rewrite app_nil_r in D. change (N.of_nat 0) with 0 in D. eexists. apply D. exact L.
Qed.
Lemma to_encrypt_nonempty m x : to_encrypt m = Ret x -> x <> [].
Proof using.
  clear. unfold to_encrypt. destruct (SlatepackAddress_Serialize (m_sender m)) as [a| |]; cbn [obind]; try discriminate.
  destruct (recipients_bytes (m_recipients m)) as [b| |]; cbn [obind]; try discriminate. intros E X. subst x.
  apply (f_equal (fun o => match o with Ret z => length z | _ => O end)) in E. unfold AppendByteVector, AppendLength in E. rewrite !app_length, !Append_length in E.
  cbn [List.length] in E. lia.
Qed.
Lemma encrypted_round_trip m rs k bs : m_mode m = ENCRYPTED -> m_major m < 256 -> m_minor m < 256 ->
  good_address (m_sender m) -> Forall good_address (m_recipients m) -> nlen (m_recipients m) <= 65535 -> nlen (m_payload m) < 2 ^ 63 ->
  (forall x c, x <> [] -> AgeEncrypt rs x = Ret c -> AgeDecrypt k c = Ret x) ->
  Message_Encrypt AgeEncrypt m rs = Ret bs -> nlen bs < 2 ^ 63 -> Message_Decrypt IsValid keypair AgeDecrypt k bs = Ret m.
Proof.
  intros Hm H1 H2 Hs Hr Hn Hp HA E L. pose proof p63 as P63. rewrite P63 in L. unfold Message_Encrypt in E.
  assert (HH : ((m_mode m =? PLAINTEXT) && negb (SlatepackAddress_IsNull (m_sender m)))%bool = false) by (rewrite Hm; reflexivity).
  rewrite HH in E. cbn [obind] in E. replace (m_mode m =? PLAINTEXT) with false in E by (rewrite Hm; reflexivity). unfold EncryptPayload in E.
  destruct (to_encrypt_read m Hs Hr Hn Hp) as (x & Ex & Rx). rewrite Ex in E. cbn [obind] in E.
  destruct (AgeEncrypt rs x) as [c| |] eqn:Ec; cbn [obind] in E; try discriminate.
  apply (f_equal (fun o => match o with Ret z => z | _ => [] end)) in E.
  assert (Lc : nlen c < 2 ^ 63). { rewrite P63. rewrite <- E in L. unfold AppendByteVector, nlen in *. rewrite !app_length in L. lia. }
  pose proof (wire_read m c [] H1 H2 ltac:(rewrite Hm; reflexivity) Lc) as W. cbv zeta in W. rewrite HH in W. specialize (W ltac:(discriminate) (proj1 (proj2 Hs)) eq_refl).
  rewrite E in W. destruct (read_whole _ _ _ W ltac:(lia)) as (b' & Rd). unfold Message_Decrypt. rewrite Rd. cbn [obind fst].
  unfold on_wire at 1. cbn [m_mode]. rewrite Hm. cbn [N.eqb ENCRYPTED Pos.eqb]. unfold DecryptPayload. unfold on_wire at 1. cbn [m_payload]. rewrite (HA x c (to_encrypt_nonempty m x Ex) Ec). cbn [obind].
  destruct ((let! md := Metadata_Deserialize IsValid in let! payload := ReadRemainingBytes in rret (md, payload)) (mkBB 0 x 1)) as [[q b2]| |]; cbn [omap fst] in Rx; try discriminate.
  injection Rx as ->. cbn [obind fst]. unfold on_wire. cbn [m_major m_minor m_mode]. destruct m; cbn in *. reflexivity.
Qed.
Lemma plain_round_trip m rs k bs : m_mode m = PLAINTEXT -> m_major m < 256 -> m_minor m < 256 ->
  (good_address (m_sender m) \/ m_sender m = repeat 0 32) -> nlen (m_payload m) < 2 ^ 63 ->
  Message_Encrypt AgeEncrypt m rs = Ret bs ->
  Message_Decrypt IsValid keypair AgeDecrypt k bs = Ret (mkMessage (m_major m) (m_minor m) (m_mode m) (m_sender m) [] (m_payload m)).
Proof.
  intros Hm H1 H2 Hs Hp E. pose proof p63 as P63. unfold Message_Encrypt in E. rewrite Hm in E. change (PLAINTEXT =? PLAINTEXT) with true in E; cbn [andb] in E.
  destruct (if negb (SlatepackAddress_IsNull (m_sender m)) then SlatepackAddress_Serialize (m_sender m) else Ret []) as [opt| |] eqn:Eo; cbn [obind] in E; try discriminate.
  apply (f_equal (fun o => match o with Ret z => z | _ => [] end)) in E.
  assert (L32 : nlen (m_sender m) = 32) by (destruct Hs as [(_ & L & _)|Z]; [exact L|rewrite Z; reflexivity]).
  pose proof (wire_read m (m_payload m) opt H1 H2 ltac:(rewrite Hm; reflexivity) Hp) as W. cbv zeta in W. rewrite Hm in W. change (PLAINTEXT =? PLAINTEXT) with true in W; cbn [andb] in W.
  specialize (W ltac:(intros Q; destruct Hs as [Hs|Z]; [exact Hs|rewrite Z in Q; discriminate Q]) L32 Eo). rewrite E in W.
  assert (Lo : nlen opt <= 64).
  { destruct Hs as [Hs|Z].
    - destruct (address_codec 1 _ Hs) as (q & Eq & Lq & _). destruct (SlatepackAddress_IsNull (m_sender m)); cbn [negb] in Eo; [injection Eo as <-; cbn; lia|].
      rewrite Eq in Eo. injection Eo as <-. unfold nlen. lia.
    - rewrite Z in Eo. change (negb (SlatepackAddress_IsNull (repeat 0 32))) with false in Eo. injection Eo as <-. cbn. lia. }
  destruct (read_whole _ _ _ W) as (b' & Rd).
  { rewrite <- E. unfold AppendByteVector, AppendLength, nlen in *. rewrite P63 in Hp. rewrite !app_length, !Append_length. lia. }
  unfold Message_Decrypt. rewrite Rd. cbn [obind fst]. unfold on_wire. cbn [m_mode]. rewrite Hm. reflexivity.
Qed.

Lemma read_fault k bs : nlen bs < 2 ^ 63 -> is_bytes bs ->
  (forall c, AgeDecrypt k c <> Fault) -> (forall c x, AgeDecrypt k c = Ret x -> is_bytes x /\ nlen x < 2 ^ 63) ->
  Message_Decrypt IsValid keypair AgeDecrypt k bs = Fault ->
  exists pre opt size rest, bs = pre ++ Append 4 (nlen opt) ++ opt ++ Append 8 size ++ rest /\ nlen pre = 5 /\ 2 ^ 63 < size.
Proof.
  intros L B HA1 HA2 E. unfold Message_Decrypt in E.
  destruct (Message_Read IsValid (mkBB 0 bs 1)) as [[m b']| |] eqn:Rd; cbn [obind fst] in E; [|discriminate|].
  - exfalso. destruct (m_mode m =? ENCRYPTED); [|discriminate]. unfold DecryptPayload in E.
    destruct (AgeDecrypt k (m_payload m)) as [x| |] eqn:Ax; cbn [obind] in E; [|discriminate|exact (HA1 _ Ax)].
    destruct (HA2 _ _ Ax) as [Bx Lx]. pose proof (safe_metadata (mkBB 0 x 1) ltac:(split; [cbn; lia|exact Lx]) Bx) as S0.
    destruct ((let! md := Metadata_Deserialize IsValid in let! payload := ReadRemainingBytes in rret (md, payload)) (mkBB 0 x 1)) as [[[[a1 a2] a3] b2]| |]; cbn [obind fst] in E; try discriminate. contradiction.
  - clear E. unfold Message_Read, ReadU8, ReadU16, ReadU32, ReadU64 in Rd. 
    assert (G0 : good_buffer (mkBB 0 bs 1)) by (split; [cbn; lia|exact L]). assert (B0 : is_bytes (m_bytes (mkBB 0 bs 1))) by exact B.
    do 5 (eapply fault_bind in Rd; [|apply safe_be; lia|apply con_be; lia|assumption|assumption];
      destruct Rd as (?a & ?b & ?c & Rd & ?G & ?B & ?Bc & (? & ?) & ?E & ?Lb)).
    assert (Ha : a3 <= 2 ^ 63) by (rewrite p63; change (256 ^ N.of_nat 4) with 4294967296 in *; lia).
    eapply fault_bind in Rd; [|apply safe_vector; exact Ha|apply con_vector; exact Ha|assumption|assumption].
    destruct Rd as (opt & bz5 & cz5 & Rd & Gz5 & Bz5 & Bcz5 & (Ecz5 & Lo) & Ez5 & Lbz5).
    set (rs := if N.testbit a2 0 then inner (SlatepackAddress_Deserialize IsValid) opt else rret (repeat 0 32)) in Rd.
    assert (Ss : safe rs).
    { unfold rs. destruct (N.testbit a2 0); [|apply safe_ret]. apply safe_inner; [apply safe_address|subst cz5; exact Bcz5|rewrite Lo; rewrite p63 in *; change (256 ^ N.of_nat 4) with 4294967296 in *; lia]. }
    apply fault_bind with (R := fun _ _ c => c = []) in Rd; [|exact Ss| |assumption|assumption].
    2:{ unfold rs. clear - a2 opt. intros b a0 b' [Ga Gb] Bb E0. unfold inner, rret in E0.
        assert (b' = b). { destruct (N.testbit a2 0); [destruct (SlatepackAddress_Deserialize IsValid (mkBB 0 opt 1)) as [[? ?]| |]; [|discriminate|discriminate]|]; injection E0 as _ <-; reflexivity. }
        subst b'. repeat split; auto; try lia. exists []. cbn [length]. repeat split; auto; try lia. constructor. }
    destruct Rd as (s & bz6 & cz6 & Rd & Gz6 & Bz6 & Bcz6 & Ecz6 & Ez6 & Lbz6).
    eapply fault_bind in Rd; [|apply safe_be; lia|apply con_be; lia|assumption|assumption].
    destruct Rd as (size & bz7 & cz7 & Rd & Gz7 & Bz7 & Bcz7 & (Ecz7 & Ls) & Ez7 & Lbz7).
    cbn [m_index m_bytes] in E. change (N.to_nat 0) with 0%nat in E. cbn [skipn] in E.
    exists (c ++ c0 ++ c1 ++ c2), opt, size, (skipn (N.to_nat (m_index bz7)) (m_bytes bz7)).
    split; [|split].
    + rewrite E, E0, E1, E2, E3, Ez5, Ez6, Ez7. subst. rewrite <- !app_assoc. reflexivity.
    + subst. reflexivity.
    + destruct (N.lt_ge_cases (2 ^ 63) size) as [?|Hge]; [assumption|exfalso].
      assert (S7 : safe (let! payload := ReadVector size in rret (mkMessage a a0 a1 s [] payload))) by (apply safe_bind; [apply safe_vector; exact Hge|intros; apply safe_ret]).
      specialize (S7 bz7 Gz7 Bz7). rewrite Rd in S7. exact S7.
Qed.
End S.
