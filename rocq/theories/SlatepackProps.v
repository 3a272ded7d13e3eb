(** C52: slatepack addresses and messages. *)
From Coq Require Import Ascii String.
From Verif Require Import Base Bytes FileModel SerialModel SerialSpec SerialProofs TextModel TextSpec Bech32Model Bech32Spec Bech32Proofs Bech32Text Bech32Four SlatepackModel SlatepackProofs TextProps.
Local Open Scope N_scope.
Local Open Scope list_scope.

(** Five-bit groups: writing gives the bits of the bytes, padded with zeros, and reading accepts exactly that. *)
Theorem C52_regrouping data : is_bytes data -> regrouped data (ToBase32 data) /\
  forall digits d, FromBase32 digits = Ret d <-> is_bytes d /\ regrouped d digits.
Proof. intros H. split; [exact (to32_regrouped data H)|exact from32_spec]. Qed.

(** The text of an address is read back as that address. *)
Theorem C52_address_round_trip IsValid k : is_bytes k -> nlen k = 32 -> IsValid k = true ->
  exists t, SlatepackAddress_ToString k = Ret t /\ nlen t = 63 /\ firstn 5 t = chars "grin1" /\ SlatepackAddress_Parse IsValid t = Ret k.
Proof.
  intros H1 H2 H3. destruct (address_parse IsValid k (conj H1 (conj H2 H3))) as (t & E & L & P). exists t. split; [exact E|]. split; [exact L|]. split; [|exact P].
  unfold SlatepackAddress_ToString, Bech32Address_ToString in E. rewrite Encode_text in E by (apply to32_five; exact H1).
  apply (f_equal (fun o => match o with Ret z => z | _ => [] end)) in E. rewrite <- E. reflexivity.
Qed.
(** Different addresses have different texts. *)
Theorem C52_address_distinct k k' t : is_bytes k -> nlen k = 32 -> is_bytes k' -> nlen k' = 32 ->
  SlatepackAddress_ToString k = Ret t -> SlatepackAddress_ToString k' = Ret t -> k = k'.
Proof.
  intros H1 H2 H3 H4 E E'. destruct (address_parse (fun _ => true) k (conj H1 (conj H2 eq_refl))) as (u & Eu & _ & P).
  destruct (address_parse (fun _ => true) k' (conj H3 (conj H4 eq_refl))) as (w & Ew & _ & P'). congruence.
Qed.
(** Exactly which texts are read as which address: printable, in one case, at most 90 characters, the lower-case form
    being what would be written for some prefix and that valid key. Nothing else is read, and reading never goes wrong. *)
Theorem C52_address_exact IsValid t : SlatepackAddress_Parse IsValid t <> Fault /\ forall k,
  SlatepackAddress_Parse IsValid t = Ret k <->
  printable t /\ one_case t /\ nlen t <= 90 /\ is_bytes k /\ nlen k = 32 /\ IsValid k = true /\
  exists prefix, prefix <> [] /\ Bech32Address_ToString prefix k = Ret (lower t).
Proof. split; [exact (parse_no_fault IsValid t)|intros k; exact (parse_exact IsValid t k)]. Qed.
(** Upper and lower case are the same to the reader. *)
Theorem C52_address_case IsValid t k : SlatepackAddress_Parse IsValid (lower t) = Ret k <-> SlatepackAddress_Parse IsValid (upper t) = Ret k.
Proof.
  rewrite !parse_exact.
  assert (Q1 : printable (lower t) <-> printable (upper t)).
  { unfold printable, lower, upper. rewrite !Forall_map, !Forall_forall. split; intros H c Hi; specialize (H c Hi); cbn beta in *;
      destruct ((65 <=? c) && (c <=? 90))%bool eqn:A; destruct ((97 <=? c) && (c <=? 122))%bool eqn:B; lia. }
  assert (Q2 : lower (lower t) = lower t) by (unfold lower; rewrite map_map; apply map_ext; intros c;
    destruct ((65 <=? c) && (c <=? 90))%bool eqn:A; cbn beta; [destruct ((65 <=? c + 32) && (c + 32 <=? 90))%bool eqn:B|rewrite A]; lia).
  assert (Q3 : lower (upper t) = lower t).
  { unfold lower, upper. rewrite map_map. apply map_ext. intros c. destruct ((97 <=? c) && (c <=? 122))%bool eqn:A; [|reflexivity].
    destruct ((65 <=? c - 32) && (c - 32 <=? 90))%bool eqn:B; destruct ((65 <=? c) && (c <=? 90))%bool eqn:C; lia. }
  assert (Q4 : upper (upper t) = upper t) by (unfold upper; rewrite map_map; apply map_ext; intros c;
    destruct ((97 <=? c) && (c <=? 122))%bool eqn:A; cbn beta; [destruct ((97 <=? c - 32) && (c - 32 <=? 122))%bool eqn:B|rewrite A]; lia).
  assert (Q5 : nlen (lower t) = nlen (upper t)) by (unfold nlen, lower, upper; rewrite !map_length; reflexivity).
  rewrite Q2, Q3, Q1, Q5. unfold one_case. rewrite Q2, Q4. split; intros (H1 & _ & H); (split; [exact H1|]); (split; [auto|exact H]).
Qed.
(** A text in which one to four characters after the separator were replaced is refused. *)
Theorem C52_errors_detected IsValid prefix d d' k : SlatepackAddress_Parse IsValid (prefix ++ chars "1" ++ d) = Ret k ->
  ~ In 49 d -> ~ In 49 d' -> length d = length d' -> (1 <= differences (lower d) (lower d') <= 4)%nat ->
  SlatepackAddress_Parse IsValid (prefix ++ chars "1" ++ d') = Throw.
Proof.
  intros E N1 N2 L D. change (prefix ++ chars "1" ++ d) with (prefix ++ 49 :: d) in E. change (prefix ++ chars "1" ++ d') with (prefix ++ 49 :: d').
  assert (G : forall t k0, SlatepackAddress_Parse IsValid t = Ret k0 -> exists h v, decoded t h v).
  { clear. intros t k0 E. unfold SlatepackAddress_Parse, Bech32Address_Parse in E.
    destruct (Decode_cases t) as [(h & v & _ & D)|[Q _]]; [exists h, v; exact D|rewrite Q in E; discriminate E]. }
  destruct (G _ _ E) as (h & v & A).
  destruct (SlatepackAddress_Parse IsValid (prefix ++ 49 :: d')) as [k'| |] eqn:E'; [exfalso|reflexivity|destruct (parse_no_fault _ _ E')].
  destruct (G _ _ E') as (h' & v' & A'). exact (decoded_errors _ _ _ _ _ _ _ N1 N2 L D A A').
Qed.
(** But the prefix is not looked at: a text made for another network is taken for an address of this one. *)
Theorem C52_other_prefix_refuted : exists t k, SlatepackAddress_Parse (fun _ => true) t = Ret k /\ firstn 6 t = chars "tgrin1" /\
  SlatepackAddress_ToString k <> Ret (lower t).
Proof.
  set (k := repeat 7 32). destruct (Bech32Address_ToString (chars "tgrin") k) as [t| |] eqn:E; [|vm_compute in E; discriminate E..].
  exists t, k. vm_compute in E. injection E as <-. split; [vm_compute; reflexivity|]. split; [reflexivity|]. vm_compute. discriminate.
Qed.
(** The binary form: a length byte and the text, read back wherever it stands. *)
Theorem C52_address_binary IsValid v k : is_bytes k -> nlen k = 32 -> IsValid k = true ->
  exists bs, SlatepackAddress_Serialize k = Ret bs /\ length bs = 64%nat /\ decodes v (SlatepackAddress_Deserialize IsValid) bs k.
Proof. intros H1 H2 H3. exact (address_codec IsValid v k (conj H1 (conj H2 H3))). Qed.

(** A message of the encrypted kind, from a valid sender, naming at most 65535 valid recipients, is read back unchanged by
    every key that opens what is encrypted for the recipients used. *)
Theorem C52_encrypted_round_trip IsValid keypair AgeEncrypt AgeDecrypt (k : keypair) m rs bs :
  m_mode m = ENCRYPTED -> m_major m < 256 -> m_minor m < 256 ->
  good_address IsValid (m_sender m) -> Forall (good_address IsValid) (m_recipients m) -> nlen (m_recipients m) <= 65535 -> nlen (m_payload m) < 2 ^ 63 ->
  (forall x c, x <> [] -> AgeEncrypt rs x = Ret c -> AgeDecrypt k c = Ret x) ->
  Message_Encrypt AgeEncrypt m rs = Ret bs -> nlen bs < 2 ^ 63 -> Message_Decrypt IsValid keypair AgeDecrypt k bs = Ret m.
Proof. exact (encrypted_round_trip IsValid keypair AgeEncrypt AgeDecrypt m rs k bs). Qed.
(** A plain message without recipients, with a valid sender or none, is read back unchanged. *)
Theorem C52_plain_round_trip IsValid keypair AgeEncrypt AgeDecrypt (k : keypair) m rs bs :
  m_mode m = PLAINTEXT -> m_major m < 256 -> m_minor m < 256 ->
  good_address IsValid (m_sender m) \/ m_sender m = repeat 0 32 -> m_recipients m = [] -> nlen (m_payload m) < 2 ^ 63 ->
  Message_Encrypt AgeEncrypt m rs = Ret bs -> Message_Decrypt IsValid keypair AgeDecrypt k bs = Ret m.
Proof.
  intros H1 H2 H3 H4 H5 H6 E. rewrite (plain_round_trip IsValid keypair AgeEncrypt AgeDecrypt m rs k bs H1 H2 H3 H4 H6 E). destruct m; cbn in *. subst. reflexivity.
Qed.
(** The recipients of a plain message are lost. *)
Theorem C52_plain_recipients_refuted : exists m bs, m_mode m = PLAINTEXT /\ good_address (fun _ => true) (m_sender m) /\ Forall (good_address (fun _ => true)) (m_recipients m) /\
  Message_Encrypt (fun _ x => Ret x) m (m_recipients m) = Ret bs /\
  exists m', Message_Decrypt (fun _ => true) unit (fun _ x => Ret x) tt bs = Ret m' /\ m_recipients m = [repeat 9 32] /\ m_recipients m' = [].
Proof.
  set (m := mkMessage 1 0 PLAINTEXT (repeat 7 32) [repeat 9 32] [1; 2]).
  destruct (Message_Encrypt (fun _ x => Ret x) m (m_recipients m)) as [bs| |] eqn:E; [|vm_compute in E; discriminate E..].
  assert (G : forall x, x < 256 -> good_address (fun _ => true) (repeat x 32)).
  { intros x H. split; [|split; reflexivity]. apply Forall_forall. intros y Hy. apply repeat_spec in Hy. subst. exact H. }
  exists m, bs. split; [reflexivity|]. split; [apply G; reflexivity|]. split; [constructor; [apply G; reflexivity|constructor]|]. split; [exact E|].
  exists (mkMessage 1 0 PLAINTEXT (repeat 7 32) [] [1; 2]). split; [|split; reflexivity].
  apply (plain_round_trip (fun _ => true) unit (fun _ x => Ret x) (fun _ x => Ret x) m (m_recipients m) tt bs); try reflexivity; [left; apply G; reflexivity|exact E].
Qed.
(** A message of an unknown kind is encrypted when written but not decrypted when read: the reader is handed the
    encrypted bytes as if they were the payload. *)
Theorem C52_unknown_mode_refuted : exists m bs m', m_mode m = 2 /\
  Message_Encrypt (fun _ x => Ret (0 :: x)) m [] = Ret bs /\
  Message_Decrypt (fun _ => true) unit (fun _ x => Ret (tl x)) tt bs = Ret m' /\ m_payload m' <> m_payload m.
Proof.
  set (m := mkMessage 1 0 2 (repeat 7 32) [] [1; 2]).
  destruct (Message_Encrypt (fun _ x => Ret (0 :: x)) m []) as [bs| |] eqn:E; [|vm_compute in E; discriminate E..].
  destruct (Message_Decrypt (fun _ => true) unit (fun _ x => Ret (tl x)) tt bs) as [m'| |] eqn:E2; vm_compute in E; injection E as <-; vm_compute in E2; try discriminate E2.
  eexists m, _, _. split; [reflexivity|]. split; [vm_compute; reflexivity|]. split; [vm_compute; reflexivity|]. vm_compute. discriminate.
Qed.
(** An encrypted message without a sender is written but cannot be read: the null key is not a valid point. *)
Theorem C52_no_sender_refuted : exists m bs, m_mode m = ENCRYPTED /\ m_sender m = repeat 0 32 /\
  Message_Encrypt (fun _ x => Ret x) m [repeat 9 32] = Ret bs /\
  Message_Decrypt (fun k => negb (SlatepackAddress_IsNull k)) unit (fun _ x => Ret x) tt bs = Throw.
Proof.
  set (m := mkMessage 1 0 ENCRYPTED (repeat 0 32) [] [1; 2]). eexists m, _. split; [reflexivity|]. split; [reflexivity|]. split; vm_compute; reflexivity.
Qed.
(** Reading bytes that nobody wrote: the only way to leave the buffer is a payload length above 2^63 in its field. *)
Theorem C52_read_fault IsValid keypair AgeDecrypt (k : keypair) bs : nlen bs < 2 ^ 63 -> is_bytes bs ->
  (forall c, AgeDecrypt k c <> Fault) -> (forall c x, AgeDecrypt k c = Ret x -> is_bytes x /\ nlen x < 2 ^ 63) ->
  Message_Decrypt IsValid keypair AgeDecrypt k bs = Fault ->
  exists pre opt size rest, bs = pre ++ Append 4 (nlen opt) ++ opt ++ Append 8 size ++ rest /\ nlen pre = 5 /\ 2 ^ 63 < size.
Proof. exact (read_fault IsValid keypair (fun _ x => Ret x) AgeDecrypt k bs). Qed.
(** And seventeen bytes are enough for that, whoever reads them. *)
Theorem C52_stays_inside_refuted : exists bs, is_bytes bs /\ nlen bs = 17 /\ forall IsValid keypair AgeDecrypt k,
  Message_Decrypt IsValid keypair AgeDecrypt k bs = Fault.
Proof.
  exists [1; 0; 0; 0; 0; 0; 0; 0; 0; 255; 255; 255; 255; 255; 255; 255; 239]. split; [repeat constructor|]. split; [reflexivity|]. intros. vm_compute. reflexivity.
Qed.
(** The whole way: a slate armored for recipients (or for nobody, in the clear) and read by a key that opens what is
    encrypted for them gives the sender and the slate, unless the checksum of the armor begins with a zero byte (C41). *)
Theorem C52_armor_partial IsValid keypair AgeEncrypt AgeDecrypt H (k : keypair) sender slate rs :
  hash_like H -> good_address IsValid sender -> is_bytes slate -> nlen slate < 2 ^ 63 ->
  (forall x c, x <> [] -> AgeEncrypt rs x = Ret c -> AgeDecrypt k c = Ret x /\ is_bytes c /\ nlen c < 2 ^ 62) ->
  let m := mkMessage 1 0 (match rs with [] => PLAINTEXT | _ => ENCRYPTED end) sender [] slate in
  (forall b, Message_Encrypt AgeEncrypt m rs = Ret b -> nth 0 (check4 H b) 0 <> 0) ->
  forall text, Armor_Pack AgeEncrypt H sender slate rs = Ret text -> Armor_Unpack IsValid keypair AgeDecrypt H text k = Ret m.
Proof.
  intros Hh Hs Hb Hl HA m Hc t E. unfold Armor_Pack in E. fold m in E.
  destruct (Message_Encrypt AgeEncrypt m rs) as [b| |] eqn:Eb; cbn [obind] in E; try discriminate. specialize (Hc b eq_refl).
  assert (Hbb : is_bytes b /\ (m_mode m = ENCRYPTED -> nlen b < 2 ^ 63)).
  { unfold Message_Encrypt in Eb. destruct (address_codec IsValid 1 _ Hs) as (ser & Es & Ls & _).
    assert (Hser : is_bytes ser).
    { destruct (address_text sender (proj1 Hs) (proj1 (proj2 Hs))) as (tx & Et & _ & _ & Pt). unfold SlatepackAddress_Serialize in Es. rewrite Et in Es. cbn [obind] in Es.
      apply (f_equal (fun o => match o with Ret z => z | _ => [] end)) in Es. rewrite <- Es. apply Forall_app. split; [apply Append_bytes|].
      unfold printable in Pt. eapply Forall_impl; [|exact Pt]. intros c Q. cbn beta in *. lia. }
    cbn [m_sender m] in Eb. rewrite Es in Eb. set (has := ((m_mode m =? PLAINTEXT) && negb (SlatepackAddress_IsNull sender))%bool) in Eb.
    destruct (if has then Ret ser else Ret []) as [opt| |] eqn:Eo; cbn [obind] in Eb; [|destruct has; discriminate..].
    assert (Ho : is_bytes opt /\ (length opt <= 64)%nat) by (destruct has; injection Eo as <-; split; [exact Hser|lia|constructor|cbn; lia]).
    destruct (if m_mode m =? PLAINTEXT then Ret (m_payload m) else EncryptPayload AgeEncrypt m rs) as [pay| |] eqn:Ep; cbn [obind] in Eb; try discriminate.
    assert (Hp : is_bytes pay /\ (m_mode m = ENCRYPTED -> nlen pay < 2 ^ 62)).
    { destruct (m_mode m =? PLAINTEXT) eqn:Em.
      - injection Ep as <-. split; [exact Hb|]. intros Q. rewrite Q in Em. discriminate Em.
      - unfold EncryptPayload in Ep. destruct (to_encrypt m) as [x| |] eqn:Ex; cbn [obind] in Ep; try discriminate. destruct (HA _ _ (to_encrypt_nonempty m x Ex) Ep) as (_ & Q1 & Q2). auto. }
    apply (f_equal (fun o => match o with Ret z => z | _ => [] end)) in Eb. rewrite <- Eb. split.
    - unfold AppendByteVector, AppendLength. do 4 (apply Forall_app; split; [apply Append_bytes|]). apply Forall_app; split; (apply Forall_app; split; [apply Append_bytes|]); [apply Ho|apply Hp].
    - intros Q. destruct Hp as [_ Hp]. specialize (Hp Q). rewrite p63. change (2 ^ 62) with 4611686018427387904 in Hp. unfold AppendByteVector, AppendLength, nlen in *. rewrite !app_length, !Append_length. lia. }
  destruct (C41_armor_partial H b Hh (proj1 Hbb) Hc) as (s & E1 & E2). rewrite E in E1. injection E1 as <-.
  unfold Armor_Unpack. rewrite E2. cbn [obind]. destruct rs as [|r rs].
  - apply (C52_plain_round_trip IsValid keypair AgeEncrypt AgeDecrypt k m [] b); auto; try reflexivity; try (left; exact Hs).
  - apply (C52_encrypted_round_trip IsValid keypair AgeEncrypt AgeDecrypt k m (r :: rs) b); auto; try reflexivity; try (left; exact Hs).
    all: try (intros x c Z Q; apply (HA x c Z Q)); try (apply Hbb; reflexivity); try (cbn; lia); constructor.
Qed.

(** Concrete cases of the hypotheses. *)
Definition sample_key : bytes := map N.of_nat (seq 11 32).
Example C52_example :
  is_bytes sample_key /\ nlen sample_key = 32 /\
  SlatepackAddress_ToString sample_key = Ret (chars "grin1pvxq6rs0zqg3yyc5z5tpwxqergd3c8g7ruszzg3rysjjvfeg9y4qaqjzaq") /\
  SlatepackAddress_Parse (fun _ => true) (chars "grin1pvxq6rs0zqg3yyc5z5tpwxqergd3c8g7ruszzg3rysjjvfeg9y4qaqjzaq") = Ret sample_key /\
  SlatepackAddress_Parse (fun _ => true) (chars "grin1pvxq6rs0zqg3yyc5z5tpwxqergd3c8g7ruszzg3rysjjvfeg9y4qaqjzap") = Throw /\
  (exists bs, Message_Encrypt (fun _ x => Ret (5 :: x)) (mkMessage 1 0 ENCRYPTED sample_key [repeat 9 32; sample_key] [1; 2; 3]) [sample_key] = Ret bs /\
     Message_Decrypt (fun _ => true) unit (fun _ x => Ret (tl x)) tt bs = Ret (mkMessage 1 0 ENCRYPTED sample_key [repeat 9 32; sample_key] [1; 2; 3])).
Proof. split; [repeat constructor|]. do 4 (split; [vm_compute; reflexivity|]). eexists. split; vm_compute; reflexivity. Qed.

Definition slatepack_theorems := (@C52_regrouping, @C52_address_round_trip, @C52_address_distinct, @C52_address_exact, @C52_address_case, @C52_errors_detected,
  @C52_other_prefix_refuted, @C52_address_binary, @C52_encrypted_round_trip, @C52_plain_round_trip, @C52_plain_recipients_refuted, @C52_unknown_mode_refuted,
  @C52_no_sender_refuted, @C52_read_fault, @C52_stays_inside_refuted, @C52_armor_partial, @C52_example).
Print Assumptions slatepack_theorems.
