(** C68: encrypted messages are read by their recipients, by nobody else, and only as they were written. *)
From Coq Require Import Ascii String.
From Verif Require Import Base Bytes FileModel TextModel TextCheck SlatepackModel SlatepackProofs SlatepackProps AgeModel AgeSpec AgeProofs.
Local Open Scope N_scope.
Local Open Scope list_scope.
Local Notation length := List.length.
Opaque CHUNK_SIZE.

(** Every recipient reads what was encrypted, whoever the other recipients are, if it is not empty. *)
Theorem C68_read : forall C file_key nonce secrets recipients payload m secret,
  lawful C -> is_bytes file_key -> length file_key = 16%nat -> length nonce = 16%nat ->
  opens_only_own C secret file_key secrets recipients ->
  Age_Encrypt C file_key nonce secrets recipients payload = Ret m ->
  In (ToPubKey C secret) recipients -> payload <> [] ->
  Age_Decrypt C secret (ToPubKey C secret) m = Ret payload.
Proof.
  intros C fk nonce secrets recipients payload m secret L Bf Lf Ln O E I P. unfold Age_Encrypt in E.
  destruct (BuildRecipientLines C fk secrets recipients) as [ls| |] eqn:B; cbn [obind] in E; try discriminate.
  match type of E with Ret ?X = _ => assert (E' : m = X) by congruence end. clear E. subst m.
  apply (build_made C L) in B; [|exact Lf].
  rewrite decrypt_parsed; [|apply (made_ok C L) in B; assumption|apply (mac_bytes C L)|apply (mac_nonempty C L)|exact Ln].
  rewrite (try_made C L) with (secrets := secrets) (recipients := recipients) by assumption.
  destruct (in_dec _ _ _); [|contradiction]. rewrite is_nil_false by exact P. reflexivity.
Qed.

(** Nobody else reads it. *)
Theorem C68_nobody_else : forall C file_key nonce secrets recipients payload m secret,
  lawful C -> is_bytes file_key -> length file_key = 16%nat -> length nonce = 16%nat ->
  opens_only_own C secret file_key secrets recipients ->
  Age_Encrypt C file_key nonce secrets recipients payload = Ret m ->
  ~ In (ToPubKey C secret) recipients ->
  Age_Decrypt C secret (ToPubKey C secret) m = Throw.
Proof.
  intros C fk nonce secrets recipients payload m secret L Bf Lf Ln O E I. unfold Age_Encrypt in E.
  destruct (BuildRecipientLines C fk secrets recipients) as [ls| |] eqn:B; cbn [obind] in E; try discriminate.
  match type of E with Ret ?X = _ => assert (E' : m = X) by congruence end. clear E. subst m.
  apply (build_made C L) in B; [|exact Lf].
  rewrite decrypt_parsed; [|apply (made_ok C L) in B; assumption|apply (mac_bytes C L)|apply (mac_nonempty C L)|exact Ln].
  rewrite (try_made C L) with (secrets := secrets) (recipients := recipients) by assumption.
  destruct (in_dec _ _ _); [contradiction|reflexivity].
Qed.

(** Not so for an empty text: it is encrypted for the recipient and nobody can read it. *)
Theorem C68_empty_refuted : forall C file_key nonce secrets recipients m secret,
  lawful C -> is_bytes file_key -> length file_key = 16%nat -> length nonce = 16%nat ->
  opens_only_own C secret file_key secrets recipients ->
  Age_Encrypt C file_key nonce secrets recipients [] = Ret m ->
  Age_Decrypt C secret (ToPubKey C secret) m = Throw.
Proof.
  intros C fk nonce secrets recipients m secret L Bf Lf Ln O E. unfold Age_Encrypt in E.
  destruct (BuildRecipientLines C fk secrets recipients) as [ls| |] eqn:B; cbn [obind] in E; try discriminate.
  match type of E with Ret ?X = _ => assert (E' : m = X) by congruence end. clear E. subst m.
  apply (build_made C L) in B; [|exact Lf].
  rewrite decrypt_parsed; [|apply (made_ok C L) in B; assumption|apply (mac_bytes C L)|apply (mac_nonempty C L)|exact Ln].
  rewrite (try_made C L) with (secrets := secrets) (recipients := recipients) by assumption.
  destruct (in_dec _ _ _); reflexivity.
Qed.

(** What is written: the text in pieces of 65536 bytes, each sealed under its own number and whether it is the last, with a key made of the nonce in
    front of it; and no two pieces are sealed under the same number. *)
Theorem C68_written : forall C file_key nonce secrets recipients payload m,
  Age_Encrypt C file_key nonce secrets recipients payload = Ret m ->
  exists header pieces, pieces_ok pieces /\ concat pieces = payload /\
    m = header ++ nonce ++ sealed C (HKDF C (Some nonce) (chars "payload") file_key) 0 pieces.
Proof.
  intros C fk nonce secrets recipients payload m E. unfold Age_Encrypt in E.
  destruct (BuildRecipientLines C fk secrets recipients) as [ls| |] eqn:B; cbn [obind] in E; try discriminate.
  match type of E with Ret ?X = _ => assert (E' : m = X) by congruence end. clear E. subst m.
  destruct (have_pieces (length payload) payload (le_n _)) as (ps & P & Ec). eexists _, ps. split; [exact P|]. split; [exact Ec|].
  subst payload. unfold StreamEncrypt. rewrite counter_start, encrypt_pieces by auto. reflexivity.
Qed.
Theorem C68_numbers : forall i j f g, i < 256 ^ 11 -> j < 256 ^ 11 -> i <> j -> be_bytes 11 i ++ [f] <> be_bytes 11 j ++ [g].
Proof.
  intros i j f g Hi Hj D E. apply app_inj_tail in E. destruct E as [E _]. apply D. apply (be_bytes_inj 11); assumption.
Qed.

(** What is read was sealed, piece by piece and to the last, with a key that is on a line of the message and was sealed for the reader. *)
Theorem C68_authentic : forall C secret public m d, lawful C -> Age_Decrypt C secret public m = Ret d ->
  d <> [] /\ exists before te tw after nonce e k fk pieces,
    m = before ++ (chars "-> X25519 " ++ te ++ [10] ++ tw ++ [10]) ++ after ++ nonce ++ sealed C (HKDF C (Some nonce) (chars "payload") fk) 0 pieces /\
    DecodeUnpadded te = Ret e /\ wrapping_key C secret e e public = Some k /\ DecodeUnpadded tw = Ret (Seal C k (repeat 0 12) fk) /\
    length nonce = 16%nat /\ pieces_ok pieces /\ concat pieces = d.
Proof. intros C secret public m d L. apply (decrypt_only_sealed C L). Qed.

(** A message cut between two pieces is not read, if nothing sealed under one number and mark opens under another. *)
Theorem C68_cut_partial : forall C file_key nonce secrets recipients secret first second,
  lawful C -> is_bytes file_key -> length file_key = 16%nat -> length nonce = 16%nat ->
  opens_only_own C secret file_key secrets recipients ->
  let key := HKDF C (Some nonce) (chars "payload") file_key in
  (forall n n' p, n <> n' -> Open C key n' (Seal C key n p) = None) ->
  pieces_ok (first ++ second) -> first <> [] -> second <> [] ->
  forall m, Age_Encrypt C file_key nonce secrets recipients (concat (first ++ second)) = Ret m ->
  exists begin rest, m = begin ++ rest /\ rest = sealed C key (nlen first) second /\
    forall d, Age_Decrypt C secret (ToPubKey C secret) begin <> Ret d.
Proof.
  intros C fk nonce secrets recipients secret a b L Bf Lf Ln O key Sep P Na Nb m E. unfold Age_Encrypt in E.
  destruct (BuildRecipientLines C fk secrets recipients) as [ls| |] eqn:B; cbn [obind] in E; try discriminate.
  match type of E with Ret ?X = _ => assert (E' : m = X) by congruence end. clear E. subst m.
  apply (build_made C L) in B; [|exact Lf]. unfold StreamEncrypt. rewrite counter_start, encrypt_pieces by auto.
  change (payload_key_of C nonce fk) with key. rewrite (sealed_app C key b Nb), N.add_0_l.
  set (h := Header_Encode _ _). exists (h ++ nonce ++ unfinished C key 0 a), (sealed C key (nlen a) b).
  split; [rewrite <- !app_assoc; reflexivity|]. split; [reflexivity|]. intros d D. unfold h in D.
  rewrite decrypt_parsed in D; [|apply (made_ok C L) in B; assumption|apply (mac_bytes C L)|apply (mac_nonempty C L)|exact Ln].
  apply (try_made_body C L) with (file_key := fk) (secrets := secrets) (recipients := recipients) in D; try assumption. destruct D as [_ D].
  unfold StreamDecrypt in D. rewrite counter_start in D. apply (decrypt_only C L) in D; [|lia]. destruct D as (ps & Pp & _ & Eq).
  revert Eq. apply (unfinished_refused C L); try assumption.
  clear - P Nb. induction a as [|p a IH]; [constructor|]. cbn [app] in P. destruct (a ++ b) as [|q r] eqn:X.
  { apply app_eq_nil in X. destruct X as [_ X]. contradiction. }
  destruct P as [P1 P2]. constructor; [exact P1|]. apply IH. exact P2.
Qed.

(** The code that authenticates the header is never looked at: with any other code the message is read all the same. *)
Theorem C68_mac_refuted : forall C file_key nonce secrets recipients payload m secret mac,
  lawful C -> is_bytes file_key -> length file_key = 16%nat -> length nonce = 16%nat ->
  opens_only_own C secret file_key secrets recipients ->
  Age_Encrypt C file_key nonce secrets recipients payload = Ret m ->
  In (ToPubKey C secret) recipients -> payload <> [] -> is_bytes mac -> mac <> [] ->
  exists header code rest, m = header ++ chars "--- " ++ EncodeUnpadded code ++ [10] ++ rest /\
    Age_Decrypt C secret (ToPubKey C secret) (header ++ chars "--- " ++ EncodeUnpadded mac ++ [10] ++ rest) = Ret payload.
Proof.
  intros C fk nonce secrets recipients payload m secret mac L Bf Lf Ln O E I P Bm Nm. unfold Age_Encrypt in E.
  destruct (BuildRecipientLines C fk secrets recipients) as [ls| |] eqn:B; cbn [obind] in E; try discriminate.
  match type of E with Ret ?X = _ => assert (E' : m = X) by congruence end. clear E. subst m.
  apply (build_made C L) in B; [|exact Lf].
  exists (chars "age-encryption.org/v1" ++ [10] ++ concat (map Line_Encode ls)), (Header_Mac C (mac_key_of C fk) ls), (nonce ++ StreamEncrypt C (payload_key_of C nonce fk) payload).
  split; [unfold Header_Encode; rewrite <- !app_assoc; reflexivity|].
  match goal with |- Age_Decrypt _ _ _ ?x = _ => replace x with (Header_Encode mac ls ++ nonce ++ StreamEncrypt C (payload_key_of C nonce fk) payload)
    by (unfold Header_Encode; rewrite <- !app_assoc; reflexivity) end.
  rewrite decrypt_parsed; [|apply (made_ok C L) in B; assumption|assumption|assumption|exact Ln].
  rewrite (try_made C L) with (secrets := secrets) (recipients := recipients) by assumption.
  destruct (in_dec _ _ _); [|contradiction]. rewrite is_nil_false by exact P. reflexivity.
Qed.
(** So the line of another recipient can be taken out of a message unnoticed. *)
Theorem C68_line_removed_refuted : forall C file_key nonce s secrets r recipients payload m secret,
  lawful C -> is_bytes file_key -> length file_key = 16%nat -> length nonce = 16%nat ->
  opens_only_own C secret file_key (s :: secrets) (r :: recipients) ->
  Age_Encrypt C file_key nonce (s :: secrets) (r :: recipients) payload = Ret m ->
  In (ToPubKey C secret) recipients -> payload <> [] ->
  exists te tw rest, m = (chars "age-encryption.org/v1" ++ [10]) ++ (chars "-> X25519 " ++ te ++ [10] ++ tw ++ [10]) ++ rest /\
    DecodeUnpadded te = Ret (ToPubKey C s) /\
    Age_Decrypt C secret (ToPubKey C secret) ((chars "age-encryption.org/v1" ++ [10]) ++ rest) = Ret payload.
Proof.
  intros C fk nonce s secrets r recipients payload m secret L Bf Lf Ln O E I P. unfold Age_Encrypt in E.
  destruct (BuildRecipientLines C fk (s :: secrets) (r :: recipients)) as [ls| |] eqn:B; cbn [obind] in E; try discriminate.
  match type of E with Ret ?X = _ => assert (E' : m = X) by congruence end. clear E. subst m.
  apply (build_made C L) in B; [|exact Lf]. inversion B as [|? ? ? ? k ls' K B']; subst.
  assert (O' : opens_only_own C secret fk secrets recipients). { intros s' r' k1 k2 X. apply O. right. exact X. }
  set (mac := Header_Mac C (mac_key_of C fk) _). 
  assert (Bm : is_bytes mac) by apply (mac_bytes C L). assert (Nm : mac <> []) by apply (mac_nonempty C L). clearbody mac.
  exists (EncodeUnpadded (ToPubKey C s)), (EncodeUnpadded (Seal C k (repeat 0 12) fk)),
    (concat (map Line_Encode ls') ++ chars "--- " ++ EncodeUnpadded mac ++ [10] ++ nonce ++ StreamEncrypt C (payload_key_of C nonce fk) payload).
  split; [|split].
  - unfold Header_Encode. cbn [map concat]. unfold Line_Encode at 1. cbn [ephemeral_public_key encrypted_file_key]. rewrite <- !app_assoc. reflexivity.
  - apply b64_round_trip, (pub_bytes C L).
  - match goal with |- Age_Decrypt _ _ _ ?x = _ => replace x with (Header_Encode mac ls' ++ nonce ++ StreamEncrypt C (payload_key_of C nonce fk) payload)
      by (unfold Header_Encode; rewrite <- !app_assoc; reflexivity) end.
    rewrite decrypt_parsed; [|apply (made_ok C L) in B'; assumption|assumption|assumption|exact Ln].
    rewrite (try_made C L) with (secrets := secrets) (recipients := recipients) by assumption.
    destruct (in_dec _ _ _); [|contradiction]. rewrite is_nil_false by exact P. reflexivity.
Qed.

(** Anyone who knows an address can send it a message on which the reader has no defined behaviour: its encrypted part is no longer than a tag. *)
Theorem C68_short_refuted : forall C secret s k, lawful C ->
  wrapping_key C s (ToPubKey C secret) (ToPubKey C s) (ToPubKey C secret) = Some k ->
  forall short, short <> [] -> nlen short <= 16 ->
  exists header, Age_Decrypt C secret (ToPubKey C secret) (header ++ repeat 0 16 ++ short) = Fault.
Proof.
  intros C secret s k L K short Ns Ls.
  set (fk := repeat 0 16). set (l := mkLine (ToPubKey C s) (Seal C k (repeat 0 12) fk)).
  exists (Header_Encode [1] [l]).
  assert (M : made C fk [s] [ToPubKey C secret] [l]) by (apply made_cons; [exact K|constructor]).
  assert (Bf : is_bytes fk). { unfold fk, is_bytes. apply Forall_forall. intros x X. apply repeat_spec in X. lia. }
  rewrite decrypt_parsed; [|apply (made_ok C L) in M; [assumption|reflexivity|assumption]|constructor; [lia|constructor]|discriminate|reflexivity].
  cbn [try_all]. unfold l. rewrite try_open with (k := k) (fk := fk).
  - assert (F : StreamDecrypt C (payload_key_of C fk fk) short = Fault).
    { unfold StreamDecrypt. destruct short as [|x short]; [congruence|]. set (e := x :: short) in *. assert (Q : length e = S (length short)) by reflexivity.
      rewrite Q. cbn [decrypt_loop]. rewrite (is_nil_false e Ns). unfold CDecrypt.
      assert (T : (length (firstn ENCRYPTED_CHUNK_SIZE e) <=? TAG_SIZE)%nat = true).
      { apply Nat.leb_le. rewrite firstn_length. unfold nlen in Ls. unfold TAG_SIZE. lia. }
      rewrite T. reflexivity. }
    rewrite F. reflexivity.
  - rewrite (same_wrapping C L). exact K.
  - rewrite (seal_length C L). reflexivity.
  - apply (open_seal C L). reflexivity.
Qed.

(** The whole message: a slatepack message encrypted for recipients, whose keys are those of their addresses, is read back unchanged by each of them
    (C52 with the encryption itself in place of a parameter; [to_key] is SlatepackAddress::ToX25519PubKey). *)
Theorem C68_slatepack : forall C IsValid to_key file_key nonce secrets secret m rs bs,
  lawful C -> is_bytes file_key -> length file_key = 16%nat -> length nonce = 16%nat ->
  opens_only_own C secret file_key secrets (map to_key rs) -> In (ToPubKey C secret) (map to_key rs) ->
  m_mode m = ENCRYPTED -> m_major m < 256 -> m_minor m < 256 ->
  good_address IsValid (m_sender m) -> Forall (good_address IsValid) (m_recipients m) -> nlen (m_recipients m) <= 65535 -> nlen (m_payload m) < 2 ^ 63 ->
  Message_Encrypt (fun addresses x => Age_Encrypt C file_key nonce secrets (map to_key addresses) x) m rs = Ret bs -> nlen bs < 2 ^ 63 ->
  Message_Decrypt IsValid bytes (fun k c => Age_Decrypt C k (ToPubKey C k) c) secret bs = Ret m.
Proof.
  intros C IsValid to_key fk nonce secrets secret m rs bs L Bf Lf Ln O I H1 H2 H3 H4 H5 H6 H7 E Lb.
  eapply C52_encrypted_round_trip; [exact H1|exact H2|exact H3|exact H4|exact H5|exact H6|exact H7| |exact E|exact Lb].
  intros x c Nx Ec. eapply C68_read; eassumption.
Qed.

(** The toy ciphers satisfy the assumptions, two recipients read a message and a third does not. *)
Lemma toy_tag_length k n : length (toy_tag k n) = 16%nat.
Proof. reflexivity. Qed.
Theorem C68_toy : lawful toy.
Proof.
  split.
  - intros a b. cbn. unfold toy_ecdh, toy_pub. cbn [hd repeat]. rewrite N.min_comm, N.max_comm. rewrite ?N.mod_mod by lia. reflexivity.
  - intros k n c m. cbn [Open Seal toy]. unfold toy_open. split.
    + destruct (16 <=? length c)%nat eqn:E; [|discriminate]. apply Nat.leb_le in E. cbn [andb].
      destruct (bytes_eqb (skipn (length c - 16) c) (toy_tag k n)) eqn:Q; [|discriminate]. apply bytes_eqb_spec in Q. intros X.
      assert (m = firstn (length c - 16) c) as -> by congruence. rewrite <- Q. symmetry. apply firstn_skipn.
    + intros ->. rewrite app_length, toy_tag_length. assert (X : (16 <=? length m + 16)%nat = true) by (apply Nat.leb_le; lia). rewrite X.
      rewrite Nat.add_sub, skipn_exact, firstn_exact by reflexivity. rewrite bytes_eqb_refl. reflexivity.
  - intros k n m. cbn [Seal toy]. rewrite app_length, toy_tag_length. reflexivity.
  - intros k n m B. cbn [Seal toy]. apply Forall_app. split; [exact B|]. unfold toy_tag. cbn [app repeat firstn]. constructor.
    + destruct (k ++ n); cbn [fold_right]; lia.
    + repeat (constructor; [lia|]). constructor.
  - intros s. cbn. reflexivity.
  - intros s. cbn [ToPubKey toy]. unfold toy_pub, is_bytes. apply Forall_forall. intros x X. apply repeat_spec in X. lia.
  - intros k m. cbn. unfold is_bytes. repeat (constructor; [lia|]). constructor.
  - intros k m. cbn. discriminate.
Qed.
Theorem C68_example :
  let send := Age_Encrypt toy (repeat 3 16) (repeat 4 16) [[11]; [12]] [toy_pub [21]; toy_pub [22]] (chars "pay me") in
  (let* m := send in Age_Decrypt toy [21] (toy_pub [21]) m) = Ret (chars "pay me") /\
  (let* m := send in Age_Decrypt toy [22] (toy_pub [22]) m) = Ret (chars "pay me") /\
  (let* m := send in Age_Decrypt toy [23] (toy_pub [23]) m) = Throw /\
  opens_only_own toy [22] (repeat 3 16) [[11]; [12]] [toy_pub [21]; toy_pub [22]] /\
  opens_only_own toy [23] (repeat 3 16) [[11]; [12]] [toy_pub [21]; toy_pub [22]] /\
  wrapping_key toy [11] (toy_pub [22]) (toy_pub [11]) (toy_pub [22]) <> None.
Proof.
  assert (T : forall x, toy_pub [x] = ToPubKey toy [x]) by reflexivity.
  cbv zeta. split; [vm_compute; reflexivity|]. split; [vm_compute; reflexivity|]. split; [vm_compute; reflexivity|].
  split; [|split; [|vm_compute; discriminate]];
    (intros s r k k' I N K K'; cbn [combine In] in I; destruct I as [I|[I|[]]]; injection I as <- <-;
     [|try (exfalso; apply N; vm_compute; reflexivity)]; vm_compute in K, K'; injection K as <-; injection K' as <-; vm_compute; reflexivity).
Qed.

Definition C68_all := (C68_read, C68_nobody_else, C68_empty_refuted, C68_written, C68_numbers, C68_authentic, C68_cut_partial, C68_mac_refuted,
  C68_line_removed_refuted, C68_short_refuted, C68_slatepack, C68_toy, C68_example).
Print Assumptions C68_all.
