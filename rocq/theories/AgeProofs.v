(** Proofs about encrypted messages. *)
From Coq Require Import Ascii String.
From Verif Require Import Base Bytes FileModel TextModel TextCheck AgeModel AgeSpec.
Local Open Scope N_scope.
Local Open Scope list_scope.
Local Notation length := List.length.

(** ** Base64 *)
Lemma all_symbols : forallb (fun i => match for_symbol (symbol i) with Index j => j =? i | _ => false end) (map N.of_nat (seq 0 64)) = true.
Proof. vm_compute. reflexivity. Qed.
Lemma for_symbol_symbol i : i < 64 -> for_symbol (symbol i) = Index i.
Proof.
  intros H. pose proof all_symbols as A. rewrite forallb_forall in A. specialize (A i).
  assert (I : In i (map N.of_nat (seq 0 64))) by (apply in_map_iff; exists (N.to_nat i); split; [lia|apply in_seq; lia]).
  specialize (A I). destruct (for_symbol (symbol i)); try discriminate. apply N.eqb_eq in A. congruence.
Qed.
Lemma bytes_ind3 (P : bytes -> Prop) : P [] -> (forall x, P [x]) -> (forall x y, P [x; y]) -> (forall x y z r, P r -> P (x :: y :: z :: r)) -> forall l, P l.
Proof.
  intros H0 H1 H2 H3. fix go 1. intros [|x [|y [|z r]]]; [exact H0|apply H1|apply H2|apply H3, go].
Qed.
Lemma b64_round_trip b : is_bytes b -> DecodeUnpadded (EncodeUnpadded b) = Ret b.
Proof.
  unfold DecodeUnpadded. induction b as [|x|x y|x y z r IH] using bytes_ind3; intros H.
  - reflexivity.
  - inversion H as [|? ? Hx _]; subst. cbn [EncodeUnpadded decode_from].
    rewrite !for_symbol_symbol by lia. cbn [app decode_tail]. f_equal. f_equal. lia.
  - inversion H as [|? ? Hx H']; subst. inversion H' as [|? ? Hy _]; subst. cbn [EncodeUnpadded decode_from].
    rewrite !for_symbol_symbol by lia. cbn [app decode_tail]. repeat f_equal; lia.
  - inversion H as [|? ? Hx H']; subst. inversion H' as [|? ? Hy H'']; subst. inversion H'' as [|? ? Hz Hr]; subst.
    cbn [EncodeUnpadded decode_from]. rewrite !for_symbol_symbol by lia. cbn [app]. rewrite IH by exact Hr. cbn [omap]. unfold decode_block. cbn [app].
    repeat f_equal; lia.
Qed.
Lemma symbol_in i : i < 64 -> In (symbol i) b64_alphabet.
Proof. intros H. unfold symbol. apply nth_In. change (length b64_alphabet) with 64%nat. lia. Qed.
Lemma encode_chars b : is_bytes b -> forall c, In c (EncodeUnpadded b) -> In c b64_alphabet.
Proof.
  induction b as [|x|x y|x y z r IH] using bytes_ind3; intros H c I.
  - destruct I.
  - inversion H as [|? ? Hx _]; subst. cbn [EncodeUnpadded In] in I. destruct I as [<-|[<-|[]]]; apply symbol_in; lia.
  - inversion H as [|? ? Hx H']; subst. inversion H' as [|? ? Hy _]; subst. cbn [EncodeUnpadded In] in I.
    destruct I as [<-|[<-|[<-|[]]]]; apply symbol_in; lia.
  - inversion H as [|? ? Hx H']; subst. inversion H' as [|? ? Hy H'']; subst. inversion H'' as [|? ? Hz Hr]; subst.
    cbn [EncodeUnpadded In] in I. destruct I as [<-|[<-|[<-|[<-|I]]]]; try (apply symbol_in; lia). apply IH; assumption.
Qed.
Lemma alphabet_chars : forallb (fun c => key_char c && negb (c =? 10))%bool b64_alphabet = true.
Proof. vm_compute. reflexivity. Qed.
Lemma alphabet_char c : In c b64_alphabet -> key_char c = true /\ c <> 10 /\ c <> 32 /\ c <> 45.
Proof.
  intros I. pose proof alphabet_chars as A. rewrite forallb_forall in A. specialize (A c I). cbv beta in A. apply andb_true_iff in A. destruct A as [A B].
  split; [exact A|]. apply negb_true_iff, N.eqb_neq in B. split; [exact B|].
  unfold key_char in A. apply negb_true_iff in A. apply orb_false_iff in A. destruct A as [A _]. apply orb_false_iff in A. destruct A as [A1 A2].
  apply N.eqb_neq in A1, A2. auto.
Qed.

(** ** The counter *)
Lemma le_bytes_0 k : le_bytes k 0 = repeat 0 k.
Proof. induction k as [|k IH]; [reflexivity|]. cbn [le_bytes repeat]. rewrite N.mod_0_l, N.div_0_l, IH by lia. reflexivity. Qed.
Lemma bump_le_next k : forall n, bump_le (le_bytes k n) = le_bytes k (n + 1).
Proof.
  induction k as [|k IH]; intros n; [reflexivity|]. cbn [le_bytes bump_le].
  destruct (n mod 256 =? 255) eqn:E.
  - apply N.eqb_eq in E. rewrite IH. f_equal; [lia|]. f_equal. lia.
  - apply N.eqb_neq in E. f_equal; [lia|]. f_equal. lia.
Qed.
Lemma be_rev_le k : forall n, rev (be_bytes k n) = le_bytes k n.
Proof. induction k as [|k IH]; intros n; [reflexivity|]. cbn [be_bytes le_bytes]. rewrite rev_app_distr. cbn [rev app]. rewrite IH. reflexivity. Qed.
Lemma bump_next k n : bump (be_bytes k n) = be_bytes k (n + 1).
Proof. unfold bump. rewrite be_rev_le, bump_le_next, <- be_rev_le, rev_involutive. reflexivity. Qed.
Lemma counter_start : repeat 0 11 = be_bytes 11 0.
Proof. reflexivity. Qed.

(** ** Pieces *)
Lemma chunk_len (p : bytes) : nlen p = 65536 <-> length p = CHUNK_SIZE.
Proof. unfold nlen, CHUNK_SIZE. lia. Qed.
Lemma chunk_pos : (0 < CHUNK_SIZE)%nat.
Proof. unfold CHUNK_SIZE. lia. Qed.
Lemma chunk_le (p : bytes) : nlen p <= 65536 <-> (length p <= CHUNK_SIZE)%nat.
Proof. unfold nlen, CHUNK_SIZE. lia. Qed.
Opaque CHUNK_SIZE.
Lemma is_nil_true {A} (l : list A) : is_nil l = true <-> l = [].
Proof. destruct l; split; intros; try discriminate; reflexivity. Qed.
Lemma is_nil_false {A} (l : list A) : l <> [] -> is_nil l = false.
Proof. destruct l; [congruence|reflexivity]. Qed.
Lemma firstn_exact {A} n (a b : list A) : length a = n -> firstn n (a ++ b) = a.
Proof. intros <-. rewrite firstn_app, Nat.sub_diag, firstn_all, firstn_O, app_nil_r. reflexivity. Qed.
Lemma skipn_exact {A} n (a b : list A) : length a = n -> skipn n (a ++ b) = b.
Proof. intros <-. rewrite skipn_app, Nat.sub_diag, skipn_all, skipn_O. reflexivity. Qed.
Lemma pieces_nonempty p ps : pieces_ok (p :: ps) -> p <> [].
Proof. intros H ->. destruct ps; cbn [pieces_ok] in H; unfold nlen in H; cbn [List.length] in H; lia. Qed.
Lemma pieces_tail p ps : pieces_ok (p :: ps) -> pieces_ok ps.
Proof. destruct ps; intros H; [exact I|apply H]. Qed.
Lemma concat_nonempty p ps : pieces_ok (p :: ps) -> concat (p :: ps) <> [].
Proof. intros H E. cbn [concat] in E. apply app_eq_nil in E. destruct E as [E _]. exact (pieces_nonempty _ _ H E). Qed.

Lemma have_pieces n : forall d, (length d <= n)%nat -> exists ps, pieces_ok ps /\ concat ps = d.
Proof.
  induction n as [|n IH]; intros d H.
  - destruct d; [|cbn in H; lia]. exists []. split; [exact I|reflexivity].
  - destruct d as [|x d']; [exists []; split; [exact I|reflexivity]|]. set (d := x :: d') in *.
    assert (D0 : (0 < length d)%nat) by (cbn; lia). clearbody d.
    destruct (le_lt_dec (length d) CHUNK_SIZE) as [L|L].
    + exists [d]. split; [|cbn; apply app_nil_r]. cbn [pieces_ok]. split; [unfold nlen; lia|apply chunk_le, L].
    + destruct (IH (skipn CHUNK_SIZE d)) as (ps & P & E). { rewrite skipn_length. pose proof chunk_pos. lia. }
      exists (firstn CHUNK_SIZE d :: ps). split.
      * destruct ps as [|q ps].
        { cbn in E. apply (f_equal (@length N)) in E. rewrite skipn_length in E. cbn in E. lia. }
        split; [|exact P]. apply chunk_len. rewrite firstn_length. lia.
      * cbn [concat]. rewrite E. apply firstn_skipn.
Qed.

Section Stream.
Variable C : age_crypto.
Hypothesis L : lawful C.
Variable key : bytes.

Lemma encrypt_pieces ps : pieces_ok ps -> forall n fuel, (length (concat ps) <= fuel)%nat ->
  encrypt_loop C fuel key (be_bytes 11 n) (concat ps) = sealed C key n ps.
Proof.
  induction ps as [|p ps IH]; intros P n fuel F.
  - destruct fuel; reflexivity.
  - pose proof (concat_nonempty _ _ P) as Ne. pose proof (pieces_nonempty _ _ P) as Np. pose proof (pieces_tail _ _ P) as Pt.
    destruct fuel as [|fuel]. { destruct (concat (p :: ps)); [congruence|cbn in F; lia]. }
    cbn [encrypt_loop]. rewrite (is_nil_false _ Ne). destruct ps as [|q ps].
    + cbn [pieces_ok] in P. destruct P as [_ P]. apply chunk_le in P. cbn [concat sealed]. rewrite app_nil_r.
      rewrite firstn_all2 by exact P. rewrite skipn_all2 by exact P. cbn [is_nil]. unfold CEncrypt.
      destruct fuel; cbn [encrypt_loop is_nil]; apply app_nil_r.
    + destruct P as [P _]. apply chunk_len in P. change (concat (p :: q :: ps)) with (p ++ concat (q :: ps)) in *.
      rewrite firstn_exact, skipn_exact by exact P. rewrite (is_nil_false _ (concat_nonempty _ _ Pt)). rewrite bump_next, IH; [reflexivity|exact Pt|].
      rewrite app_length in F. pose proof chunk_pos. lia.
Qed.
Lemma seal_len n p : length (Seal C key n p) = (length p + 16)%nat.
Proof. apply seal_length, L. Qed.
Lemma sealed_nonempty n p ps : sealed C key n (p :: ps) <> [].
Proof.
  intros E. apply (f_equal (@length N)) in E. destruct ps; cbn [sealed] in E; [|rewrite app_length in E]; rewrite seal_len in E; cbn in E; lia.
Qed.
Lemma decrypt_pieces ps : pieces_ok ps -> forall n fuel, (length (sealed C key n ps) <= fuel)%nat ->
  decrypt_loop C fuel key (be_bytes 11 n) (sealed C key n ps) = Ret (concat ps).
Proof.
  induction ps as [|p ps IH]; intros P n fuel F.
  - destruct fuel; reflexivity.
  - pose proof (sealed_nonempty n p ps) as Ne. pose proof (pieces_nonempty _ _ P) as Np. pose proof (pieces_tail _ _ P) as Pt.
    destruct fuel as [|fuel]. { destruct (sealed C key n (p :: ps)); [congruence|cbn in F; lia]. }
    assert (Lp : (0 < length p)%nat) by (destruct p; [congruence|cbn; lia]).
    assert (Op : forall fl, CDecrypt C key (be_bytes 11 n ++ [fl]) (Seal C key (be_bytes 11 n ++ [fl]) p) = Ret p).
    { intros fl. unfold CDecrypt. rewrite seal_len. assert (Q : (length p + 16 <=? TAG_SIZE)%nat = false) by (apply Nat.leb_gt; unfold TAG_SIZE; lia).
      rewrite Q. assert (O : Open C key (be_bytes 11 n ++ [fl]) (Seal C key (be_bytes 11 n ++ [fl]) p) = Some p) by (apply (open_seal C L); reflexivity).
      rewrite O. reflexivity. }
    cbn [decrypt_loop]. rewrite (is_nil_false _ Ne). unfold ENCRYPTED_CHUNK_SIZE, TAG_SIZE. destruct ps as [|q ps].
    + cbn [pieces_ok] in P. destruct P as [_ P]. apply chunk_le in P. cbn [concat sealed]. rewrite app_nil_r.
      rewrite firstn_all2 by (rewrite seal_len; lia). rewrite skipn_all2 by (rewrite seal_len; lia). cbn [is_nil]. rewrite Op. cbn [obind].
      destruct fuel; cbn [decrypt_loop is_nil obind]; rewrite app_nil_r; reflexivity.
    + destruct P as [P _]. apply chunk_len in P. change (sealed C key n (p :: q :: ps)) with (Seal C key (be_bytes 11 n ++ [0]) p ++ sealed C key (n + 1) (q :: ps)) in *.
      rewrite firstn_exact, skipn_exact by (rewrite seal_len; lia). rewrite (is_nil_false _ (sealed_nonempty (n + 1) q ps)). rewrite Op. cbn [obind].
      rewrite bump_next, IH; [reflexivity|exact Pt|]. rewrite app_length, seal_len in F. lia.
Qed.
Lemma decrypt_only fuel : forall n e d, (length e <= fuel)%nat -> decrypt_loop C fuel key (be_bytes 11 n) e = Ret d ->
  exists ps, pieces_ok ps /\ concat ps = d /\ e = sealed C key n ps.
Proof.
  induction fuel as [|fuel IH]; intros n e d F E.
  - destruct e; [|cbn in F; lia]. cbn in E. injection E as <-. exists []. repeat split.
  - cbn [decrypt_loop] in E. destruct (is_nil e) eqn:Z.
    { apply is_nil_true in Z. subst e. injection E as <-. exists []. repeat split. }
    assert (Le : (0 < length e)%nat) by (destruct e; [discriminate|cbn; lia]).
    unfold ENCRYPTED_CHUNK_SIZE, TAG_SIZE in E. set (W := (CHUNK_SIZE + 16)%nat) in *.
    set (fl := if is_nil (skipn W e) then 1 else 0) in *.
    destruct (CDecrypt C key (be_bytes 11 n ++ [fl]) (firstn W e)) as [c| |] eqn:D; cbn [obind] in E; try discriminate.
    unfold CDecrypt in D. destruct (length (firstn W e) <=? TAG_SIZE)%nat eqn:S; [discriminate|]. apply Nat.leb_gt in S. unfold TAG_SIZE in S.
    destruct (Open C key (be_bytes 11 n ++ [fl]) (firstn W e)) as [c'|] eqn:O; [|discriminate]. injection D as ->.
    apply (open_seal C L) in O.
    assert (Lc : length (firstn W e) = (length c + 16)%nat) by (rewrite O; apply seal_len).
    rewrite bump_next in E. destruct (decrypt_loop C fuel key (be_bytes 11 (n + 1)) (skipn W e)) as [d'| |] eqn:R; cbn [obind] in E; try discriminate.
    injection E as <-. apply IH in R; [|rewrite skipn_length; pose proof chunk_pos; unfold W; lia].
    destruct R as (ps & P & Ec & Es). exists (c :: ps). rewrite firstn_length in Lc, S.
    destruct ps as [|q ps].
    + cbn [sealed] in Es. unfold fl in O. rewrite Es in O. cbn [is_nil] in O. cbn [concat] in *. subst d'. split; [|split; [reflexivity|]].
      * cbn [pieces_ok]. split; [unfold nlen; lia|apply chunk_le; unfold W in Lc; lia].
      * rewrite <- (firstn_skipn W e), Es, app_nil_r. exact O.
    + pose proof (sealed_nonempty (n + 1) q ps) as Ns. rewrite <- Es in Ns. unfold fl in O. rewrite (is_nil_false _ Ns) in O.
      split; [|split].
      * split; [|exact P]. apply chunk_len. assert (W < length e)%nat. { apply Nat.nle_gt. intros X. apply Ns. apply skipn_all2, X. } unfold W in *. lia.
      * change (concat (c :: q :: ps)) with (c ++ concat (q :: ps)). rewrite Ec. reflexivity.
      * change (sealed C key n (c :: q :: ps)) with (Seal C key (be_bytes 11 n ++ [0]) c ++ sealed C key (n + 1) (q :: ps)).
        rewrite <- O, <- Es. symmetry. apply firstn_skipn.
Qed.
Lemma stream_round_trip d : StreamDecrypt C key (StreamEncrypt C key d) = Ret d.
Proof.
  destruct (have_pieces (length d) d (le_n _)) as (ps & P & <-). unfold StreamEncrypt, StreamDecrypt. rewrite counter_start, encrypt_pieces by auto.
  apply decrypt_pieces; auto.
Qed.
Lemma stream_empty : StreamEncrypt C key [] = [].
Proof. reflexivity. Qed.
End Stream.

(** ** The header *)
Lemma read_line t : ~ In 10 t -> forall pre rest,
  read_lines pre (t ++ 10 :: rest) =
  if StartsWith (pre ++ t) (chars "---") then Ret ([pre ++ t], rest) else omap (fun x => ((pre ++ t) :: fst x, snd x)) (read_lines [] rest).
Proof.
  induction t as [|c t IH]; intros N pre rest.
  - cbn [app read_lines]. rewrite N.eqb_refl, app_nil_r. reflexivity.
  - cbn [app read_lines]. assert (Q : (c =? 10) = false) by (apply N.eqb_neq; intros ->; apply N; left; reflexivity).
    rewrite Q, IH by (intros I; apply N; right; exact I). rewrite <- app_assoc. reflexivity.
Qed.
Definition line_ok (l : RecipientLine) : Prop :=
  is_bytes (ephemeral_public_key l) /\ length (ephemeral_public_key l) = 32%nat /\ is_bytes (encrypted_file_key l) /\ length (encrypted_file_key l) = 32%nat.
Definition line_texts (l : RecipientLine) : list bytes :=
  [chars "-> X25519 " ++ EncodeUnpadded (ephemeral_public_key l); EncodeUnpadded (encrypted_file_key l)].
Lemma b64_not b c : is_bytes b -> ~ In c b64_alphabet -> ~ In c (EncodeUnpadded b).
Proof. intros B N I. apply N, (encode_chars b B), I. Qed.
Lemma no_nl b : is_bytes b -> ~ In 10 (EncodeUnpadded b).
Proof. intros B I. apply (encode_chars b B) in I. apply alphabet_char in I. destruct I as (_ & I & _). congruence. Qed.
Lemma no_space b : is_bytes b -> ~ In 32 (EncodeUnpadded b).
Proof. intros B I. apply (encode_chars b B) in I. apply alphabet_char in I. destruct I as (_ & _ & I & _). congruence. Qed.
Lemma no_dashes b : is_bytes b -> StartsWith (EncodeUnpadded b) (chars "---") = false.
Proof.
  intros B. destruct (StartsWith (EncodeUnpadded b) (chars "---")) eqn:S; [|reflexivity]. apply StartsWith_iff in S. destruct S as [r S].
  assert (I : In 45 (EncodeUnpadded b)) by (rewrite S; left; reflexivity).
  apply (encode_chars b B) in I. apply alphabet_char in I. destruct I as (_ & _ & _ & I). congruence.
Qed.
Lemma arrow_dashes x : StartsWith (chars "-> X25519 " ++ x) (chars "---") = false.
Proof. unfold StartsWith. destruct (_ <? _); reflexivity. Qed.
Lemma arrow_arrow x : StartsWith (chars "-> X25519 " ++ x) (chars "-> X25519 ") = true.
Proof. apply StartsWith_iff. eauto. Qed.
Lemma dashes_arrow x : StartsWith (chars "--- " ++ x) (chars "-> X25519 ") = false.
Proof.
  destruct (StartsWith (chars "--- " ++ x) (chars "-> X25519 ")) eqn:S; [|reflexivity]. apply StartsWith_iff in S. destruct S as [r S]. discriminate S.
Qed.
Lemma dashes_dashes x : StartsWith (chars "--- " ++ x) (chars "---") = true.
Proof. apply StartsWith_iff. exists (32 :: x). reflexivity. Qed.
Lemma no_nl_arrow : ~ In 10 (chars "-> X25519 ").
Proof. intros I. vm_compute in I. repeat (destruct I as [I|I]; [discriminate I|]). exact I. Qed.
Lemma no_nl_dashes : ~ In 10 (chars "--- ").
Proof. intros I. vm_compute in I. repeat (destruct I as [I|I]; [discriminate I|]). exact I. Qed.
Lemma no_nl_first : ~ In 10 (chars "age-encryption.org/v1").
Proof. intros I. vm_compute in I. repeat (destruct I as [I|I]; [discriminate I|]). exact I. Qed.
Lemma first_dashes : StartsWith (chars "age-encryption.org/v1") (chars "---") = false.
Proof. reflexivity. Qed.

Lemma read_tail ls mac data : Forall line_ok ls -> is_bytes mac ->
  read_lines [] (concat (map Line_Encode ls) ++ chars "--- " ++ EncodeUnpadded mac ++ 10 :: data)
  = Ret (concat (map line_texts ls) ++ [chars "--- " ++ EncodeUnpadded mac], data).
Proof.
  intros F M. induction F as [|l ls (E1 & E2 & F1 & F2) _ IH].
  - cbn [map concat app]. rewrite (app_assoc (chars "--- ")). rewrite read_line.
    + rewrite (app_nil_l (chars "--- " ++ _)), dashes_dashes. reflexivity.
    + intros I. apply in_app_or in I. destruct I as [I|I]; [exact (no_nl_dashes I)|exact (no_nl _ M I)].
  - cbn [map concat]. unfold Line_Encode at 1. rewrite <- !app_assoc. rewrite (app_assoc (chars "-> X25519 ")).
    cbn [app]. rewrite read_line.
    2: { intros I. apply in_app_or in I. destruct I as [I|I]; [exact (no_nl_arrow I)|exact (no_nl _ E1 I)]. }
    rewrite app_nil_l, arrow_dashes. rewrite read_line by (apply no_nl, F1). rewrite app_nil_l, no_dashes by exact F1. rewrite IH. reflexivity.
Qed.
Lemma read_header ls mac data : Forall line_ok ls -> is_bytes mac ->
  read_lines [] (Header_Encode mac ls ++ data)
  = Ret (chars "age-encryption.org/v1" :: concat (map line_texts ls) ++ [chars "--- " ++ EncodeUnpadded mac], data).
Proof.
  intros F M. unfold Header_Encode. rewrite <- !app_assoc. cbn [app]. rewrite read_line by exact no_nl_first. rewrite app_nil_l, first_dashes.
  rewrite read_tail by assumption. reflexivity.
Qed.
Lemma match_own b : is_bytes b -> recipient_match (chars "-> X25519 " ++ EncodeUnpadded b) = Some (EncodeUnpadded b).
Proof.
  intros B. unfold recipient_match. rewrite arrow_arrow. cbv zeta. rewrite skipn_exact by reflexivity.
  assert (Q : forallb key_char (EncodeUnpadded b) = true).
  { apply forallb_forall. intros c I. apply (encode_chars b B) in I. apply alphabet_char in I. apply I. }
  rewrite Q. reflexivity.
Qed.
Lemma match_last x : recipient_match (chars "--- " ++ x) = None.
Proof. unfold recipient_match. rewrite dashes_arrow. reflexivity. Qed.
Lemma encode_nonempty b : b <> [] -> EncodeUnpadded b <> [].
Proof. destruct b as [|x [|y [|z r]]]; intros H E; [congruence|discriminate E..]. Qed.
Lemma split_mac mac : is_bytes mac -> mac <> [] -> Split (chars "--- " ++ EncodeUnpadded mac) 32 = [chars "---"; EncodeUnpadded mac].
Proof.
  intros M N. change (chars "--- " ++ EncodeUnpadded mac) with (chars "---" ++ 32 :: EncodeUnpadded mac).
  rewrite Split_token; [|discriminate|intros I; vm_compute in I; repeat (destruct I as [I|I]; [discriminate I|]); exact I].
  rewrite Split_last; [reflexivity|apply encode_nonempty, N|apply no_space, M].
Qed.
Lemma decode_header ls mac : Forall line_ok ls -> is_bytes mac -> mac <> [] ->
  decode_lines (concat (map line_texts ls) ++ [chars "--- " ++ EncodeUnpadded mac]) = Ret ls.
Proof.
  intros F M N. induction F as [|l ls (E1 & E2 & F1 & F2) _ IH].
  - cbn [map concat app decode_lines]. rewrite match_last, dashes_dashes, split_mac by assumption. rewrite b64_round_trip by exact M. reflexivity.
  - cbn [map concat]. unfold line_texts at 1. rewrite <- app_assoc. cbn [app decode_lines]. rewrite match_own by exact E1.
    rewrite b64_round_trip by exact E1. cbn [obind]. rewrite E2, Nat.eqb_refl. cbn [negb]. rewrite b64_round_trip by exact F1. cbn [obind].
    rewrite F2, Nat.eqb_refl. cbn [negb]. rewrite IH. destruct l; reflexivity.
Qed.

Section Messages.
Variable C : age_crypto.
Hypothesis L : lawful C.

Lemma decrypt_parsed secret public ls mac nonce body : Forall line_ok ls -> is_bytes mac -> mac <> [] -> length nonce = 16%nat ->
  Age_Decrypt C secret public (Header_Encode mac ls ++ nonce ++ body) = try_all C secret public ls nonce body.
Proof.
  intros F M N Ln. unfold Age_Decrypt. rewrite read_header by assumption. cbn [obind].
  assert (Q : (length (nonce ++ body) <? 16)%nat = false) by (apply Nat.ltb_ge; rewrite app_length; lia). rewrite Q.
  unfold Header_Decode. cbn [tl]. rewrite decode_header by assumption. cbn [obind]. rewrite firstn_exact, skipn_exact by exact Ln. reflexivity.
Qed.
(** What the lines of an encryption are. *)
Inductive made (file_key : bytes) : list bytes -> list bytes -> list RecipientLine -> Prop :=
| made_nil secrets : made file_key secrets [] []
| made_cons s secrets r recipients k ls : wrapping_key C s r (ToPubKey C s) r = Some k -> made file_key secrets recipients ls ->
    made file_key (s :: secrets) (r :: recipients) (mkLine (ToPubKey C s) (Seal C k (repeat 0 12) file_key) :: ls).
Lemma build_made file_key : length file_key = 16%nat -> forall recipients secrets ls,
  BuildRecipientLines C file_key secrets recipients = Ret ls -> made file_key secrets recipients ls.
Proof.
  intros Lf recipients. induction recipients as [|r recipients IH]; intros secrets ls H.
  - destruct secrets; cbn [BuildRecipientLines] in H; injection H as <-; constructor.
  - destruct secrets as [|s secrets]; [discriminate|]. cbn [BuildRecipientLines] in H.
    destruct (ECDH C s r) as [sh|] eqn:E; [|discriminate]. destruct (BuildRecipientLines C file_key secrets recipients) as [ls'| |] eqn:B; cbn [omap] in H; try discriminate.
    match type of H with Ret ?X = _ => assert (E' : ls = X) by congruence end. clear H. subst ls. unfold CEncrypt. rewrite firstn_all2 by (rewrite (seal_length C L), Lf; lia).
    apply made_cons; [|apply IH, B]. unfold wrapping_key. rewrite E. reflexivity.
Qed.
Lemma made_ok file_key secrets recipients ls : length file_key = 16%nat -> is_bytes file_key -> made file_key secrets recipients ls -> Forall line_ok ls.
Proof.
  intros Lf Bf M. induction M; constructor; [|assumption]. repeat split; cbn [ephemeral_public_key encrypted_file_key].
  - apply (pub_bytes C L).
  - apply (pub_length C L).
  - apply (seal_bytes C L), Bf.
  - rewrite (seal_length C L), Lf. reflexivity.
Qed.
Lemma try_open secret public e w k fk nonce body : wrapping_key C secret e e public = Some k -> length w = 32%nat -> Open C k (repeat 0 12) w = Some fk ->
  TryDecrypt C secret public (mkLine e w) nonce body = match StreamDecrypt C (payload_key_of C nonce fk) body with Throw => Ret [] | o => o end.
Proof.
  unfold wrapping_key, TryDecrypt. cbn [ephemeral_public_key encrypted_file_key]. destruct (ECDH C secret e) as [sh|]; [|discriminate]. intros K Lw O.
  injection K as K. unfold CalcEncryptionKey. rewrite K. unfold CDecrypt. rewrite Lw. cbn [Nat.leb]. rewrite O. reflexivity.
Qed.
Lemma try_shut secret public e w nonce body : length w = 32%nat -> (forall k, wrapping_key C secret e e public = Some k -> Open C k (repeat 0 12) w = None) ->
  TryDecrypt C secret public (mkLine e w) nonce body = Ret [].
Proof.
  unfold wrapping_key, TryDecrypt. cbn [ephemeral_public_key encrypted_file_key]. destruct (ECDH C secret e) as [sh|]; [|reflexivity]. intros Lw O.
  unfold CDecrypt, CalcEncryptionKey. rewrite Lw. cbn [Nat.leb]. rewrite (O _ eq_refl). reflexivity.
Qed.
Lemma same_wrapping s secret : wrapping_key C secret (ToPubKey C s) (ToPubKey C s) (ToPubKey C secret) = wrapping_key C s (ToPubKey C secret) (ToPubKey C s) (ToPubKey C secret).
Proof. unfold wrapping_key. rewrite (shared_alike C L). reflexivity. Qed.
Lemma bytes_dec (a b : bytes) : {a = b} + {a <> b}.
Proof. apply list_eq_dec, N.eq_dec. Qed.

Lemma try_made file_key secrets recipients ls secret nonce payload :
  length file_key = 16%nat -> opens_only_own C secret file_key secrets recipients -> made file_key secrets recipients ls ->
  try_all C secret (ToPubKey C secret) ls nonce (StreamEncrypt C (payload_key_of C nonce file_key) payload)
  = if in_dec bytes_dec (ToPubKey C secret) recipients then if is_nil payload then Throw else Ret payload else Throw.
Proof.
  intros Lf O M. induction M as [secrets|s secrets r recipients k ls K M IH]; [reflexivity|].
  assert (O' : opens_only_own C secret file_key secrets recipients).
  { intros s' r' k1 k2 I. apply O. right. exact I. }
  specialize (IH O'). cbn [try_all].
  assert (Lw : length (Seal C k (repeat 0 12) file_key) = 32%nat) by (rewrite (seal_length C L), Lf; reflexivity).
  destruct (bytes_dec r (ToPubKey C secret)) as [->|Nr].
  - rewrite try_open with (k := k) (fk := file_key); [|rewrite same_wrapping; exact K|exact Lw|apply (open_seal C L); reflexivity].
    rewrite (stream_round_trip C L). cbn [obind].
    destruct (in_dec bytes_dec (ToPubKey C secret) (ToPubKey C secret :: recipients)) as [_|X]; [|exfalso; apply X; left; reflexivity].
    destruct (is_nil payload) eqn:Z; [|reflexivity].
    apply is_nil_true in Z. subst payload. rewrite IH. cbn [is_nil]. destruct (in_dec _ _ _); reflexivity.
  - rewrite try_shut; [|exact Lw|]. 2: { intros k' K'. apply (O s r k k'); try assumption. left. reflexivity. }
    cbn [obind is_nil]. rewrite IH. destruct (in_dec bytes_dec (ToPubKey C secret) recipients) as [I|I], (in_dec bytes_dec (ToPubKey C secret) (r :: recipients)) as [J|J]; try reflexivity.
    + exfalso. apply J. right. exact I.
    + exfalso. destruct J as [J|J]; [congruence|contradiction].
Qed.
Lemma try_all_only secret public ls nonce body d : try_all C secret public ls nonce body = Ret d ->
  d <> [] /\ exists e w k fk, In (mkLine e w) ls /\ wrapping_key C secret e e public = Some k /\ w = Seal C k (repeat 0 12) fk /\
    StreamDecrypt C (payload_key_of C nonce fk) body = Ret d.
Proof.
  induction ls as [|[e w] ls IH]; intros H; [discriminate|]. cbn [try_all] in H.
  destruct (TryDecrypt C secret public (mkLine e w) nonce body) as [x| |] eqn:T; cbn [obind] in H; try discriminate.
  destruct (is_nil x) eqn:Z.
  - destruct (IH H) as (D & e' & w' & k & fk & I & R). split; [exact D|]. exists e', w', k, fk. split; [right; exact I|exact R].
  - injection H as <-. split; [intros ->; discriminate|]. unfold TryDecrypt in T. cbn [ephemeral_public_key encrypted_file_key] in T.
    destruct (ECDH C secret e) as [sh|] eqn:E; [|injection T as <-; discriminate].
    unfold CDecrypt in T. destruct (_ <=? _)%nat; [discriminate|].
    destruct (Open C (CalcEncryptionKey C sh e public) (repeat 0 12) w) as [fk|] eqn:O; [|injection T as <-; discriminate].
    destruct (StreamDecrypt C (payload_key_of C nonce fk) body) as [y| |] eqn:S; [|injection T as <-; discriminate|discriminate]. injection T as <-.
    exists e, w, (CalcEncryptionKey C sh e public), fk. split; [left; reflexivity|]. split; [unfold wrapping_key; rewrite E; reflexivity|].
    split; [apply (open_seal C L), O|exact S].
Qed.
Lemma read_lines_split data : forall line ls rest, read_lines line data = Ret (ls, rest) ->
  line ++ data = concat (map (fun l => l ++ [10]) ls) ++ rest.
Proof.
  induction data as [|c data IH]; intros line ls rest H; [discriminate|]. cbn [read_lines] in H. destruct (c =? 10) eqn:Q.
  - apply N.eqb_eq in Q. subst c. destruct (StartsWith _ _).
    + injection H as <- <-. cbn [map concat]. rewrite app_nil_r, <- app_assoc. reflexivity.
    + destruct (read_lines [] data) as [[x y]| |] eqn:R; cbn [omap fst snd] in H; try discriminate. injection H as <- <-.
      apply IH in R. cbn [app] in R. cbn [map concat]. rewrite R, <- !app_assoc. reflexivity.
  - apply IH in H. rewrite <- app_assoc in H. exact H.
Qed.
Lemma decode_lines_in n : forall ls rs e w, (length ls <= n)%nat -> decode_lines ls = Ret rs -> In (mkLine e w) rs ->
  exists pre post te tw, ls = pre ++ (chars "-> X25519 " ++ te) :: tw :: post /\ DecodeUnpadded te = Ret e /\ DecodeUnpadded tw = Ret w.
Proof.
  induction n as [|n IH]; intros [|l ls] rs e w Ln H I; try discriminate; [cbn in Ln; lia|].
  cbn [List.length] in Ln. cbn [decode_lines] in H. unfold recipient_match in H. destruct (StartsWith l (chars "-> X25519 ")) eqn:S.
  - apply StartsWith_iff in S. destruct S as [te ->]. rewrite skipn_exact in H by reflexivity. cbv zeta in H. destruct (forallb key_char te).
    + destruct (DecodeUnpadded te) as [pk| |] eqn:D; cbn [obind] in H; try discriminate. destruct (negb _); [discriminate|].
      destruct ls as [|f ls]; [discriminate|]. destruct (DecodeUnpadded f) as [fk| |] eqn:Df; cbn [obind] in H; try discriminate. destruct (negb _); [discriminate|].
      destruct (decode_lines ls) as [rs'| |] eqn:R; cbn [omap] in H; try discriminate. injection H as <-. destruct I as [I|I].
      * injection I as <- <-. exists [], ls, te, f. auto.
      * destruct (IH ls rs' e w) as (pre & post & te' & tw & -> & X); [cbn in Ln; lia|exact R|exact I|]. exists ((chars "-> X25519 " ++ te) :: f :: pre), post, te', tw. split; [reflexivity|exact X].
    + rewrite arrow_dashes in H. destruct (IH ls rs e w) as (pre & post & te' & tw & -> & X); [lia|exact H|exact I|].
      exists ((chars "-> X25519 " ++ te) :: pre), post, te', tw. split; [reflexivity|exact X].
  - destruct (StartsWith l (chars "---")).
    + destruct (Split l 32) as [|? [|p [|]]]; try discriminate. destruct (DecodeUnpadded p); cbn [obind] in H; try discriminate. injection H as <-. destruct I.
    + destruct (IH ls rs e w) as (pre & post & te' & tw & -> & X); [lia|exact H|exact I|]. exists (l :: pre), post, te', tw. split; [reflexivity|exact X].
Qed.
Lemma decrypt_only_sealed secret public m d : Age_Decrypt C secret public m = Ret d ->
  d <> [] /\ exists before te tw after nonce e k fk pieces,
    m = before ++ (chars "-> X25519 " ++ te ++ [10] ++ tw ++ [10]) ++ after ++ nonce ++ sealed C (HKDF C (Some nonce) (chars "payload") fk) 0 pieces /\
    DecodeUnpadded te = Ret e /\ wrapping_key C secret e e public = Some k /\ DecodeUnpadded tw = Ret (Seal C k (repeat 0 12) fk) /\
    length nonce = 16%nat /\ pieces_ok pieces /\ concat pieces = d.
Proof.
  unfold Age_Decrypt. destruct (read_lines [] m) as [[ls data]| |] eqn:R; cbn [obind]; try discriminate.
  destruct (length data <? 16)%nat eqn:S; [discriminate|]. apply Nat.ltb_ge in S. destruct (Header_Decode ls) as [rs| |] eqn:Hd; cbn [obind]; try discriminate.
  intros H. apply try_all_only in H. destruct H as (D & e & w & k & fk & I & K & W & H). split; [exact D|].
  apply read_lines_split in R. cbn [app] in R. unfold StreamDecrypt in H. rewrite counter_start in H.
  apply (decrypt_only C L) in H; [|lia]. destruct H as (ps & P & Ec & Es).
  unfold Header_Decode in Hd. destruct (decode_lines_in _ _ _ _ _ (le_n _) Hd I) as (pre & post & te & tw & El & De & Dw). subst w.
  assert (Ls : exists pre', ls = pre' ++ (chars "-> X25519 " ++ te) :: tw :: post).
  { destruct ls as [|l0 ls]; cbn [tl] in El; [destruct pre; discriminate|]. exists (l0 :: pre). rewrite El. reflexivity. }
  destruct Ls as [pre' ->].
  exists (concat (map (fun l => l ++ [10]) pre')), te, tw, (concat (map (fun l => l ++ [10]) post)), (firstn 16 data), e, k, fk, ps.
  split; [|split; [exact De|split; [exact K|split; [exact Dw|split; [rewrite firstn_length; lia|auto]]]]].
  rewrite R, map_app, concat_app. cbn [map concat]. rewrite <- !app_assoc. cbn [app].
  unfold payload_key_of in Es. rewrite <- Es, firstn_skipn. reflexivity.
Qed.

(** ** Altered messages *)
Lemma try_made_body file_key secrets recipients ls secret nonce body d :
  length file_key = 16%nat -> opens_only_own C secret file_key secrets recipients -> made file_key secrets recipients ls ->
  try_all C secret (ToPubKey C secret) ls nonce body = Ret d ->
  In (ToPubKey C secret) recipients /\ StreamDecrypt C (payload_key_of C nonce file_key) body = Ret d.
Proof.
  intros Lf O M. induction M as [secrets|s secrets r recipients k ls K M IH]; [discriminate|].
  assert (O' : opens_only_own C secret file_key secrets recipients).
  { intros s' r' k1 k2 I. apply O. right. exact I. }
  specialize (IH O'). cbn [try_all].
  assert (Lw : length (Seal C k (repeat 0 12) file_key) = 32%nat) by (rewrite (seal_length C L), Lf; reflexivity).
  destruct (bytes_dec r (ToPubKey C secret)) as [->|Nr].
  - rewrite try_open with (k := k) (fk := file_key); [|rewrite same_wrapping; exact K|exact Lw|apply (open_seal C L); reflexivity].
    intros H. split; [left; reflexivity|].
    destruct (StreamDecrypt C (payload_key_of C nonce file_key) body) as [x| |] eqn:S; cbn [obind] in H; try discriminate.
    + destruct (is_nil x) eqn:Z; [|congruence]. destruct (IH H) as [_ X]. exact X.
    + cbn [is_nil] in H. destruct (IH H) as [_ X]. discriminate.
  - rewrite try_shut; [|exact Lw|]. 2: { intros k' K'. apply (O s r k k'); try assumption. left. reflexivity. }
    cbn [obind is_nil]. intros H. destruct (IH H) as [I X]. split; [right; exact I|exact X].
Qed.
Fixpoint unfinished (key : bytes) (number : N) (pieces : list bytes) : bytes :=
  match pieces with [] => [] | p :: rest => Seal C key (be_bytes 11 number ++ [0]) p ++ unfinished key (number + 1) rest end.
Lemma sealed_app key b : b <> [] -> forall a n, sealed C key n (a ++ b) = unfinished key n a ++ sealed C key (n + nlen a) b.
Proof.
  intros B a. induction a as [|p a IH]; intros n; cbn [app unfinished].
  - unfold nlen. cbn [List.length]. f_equal. lia.
  - destruct (a ++ b) as [|q r] eqn:E. { apply app_eq_nil in E. destruct E as [_ E]. contradiction. }
    change (sealed C key n (p :: q :: r)) with (Seal C key (be_bytes 11 n ++ [0]) p ++ sealed C key (n + 1) (q :: r)).
    rewrite IH, <- app_assoc. do 2 f_equal. f_equal. unfold nlen. cbn [List.length]. lia.
Qed.
Lemma unfinished_refused key : (forall n n' p, n <> n' -> Open C key n' (Seal C key n p) = None) ->
  forall a n ps, a <> [] -> Forall (fun p => nlen p = 65536) a -> pieces_ok ps -> unfinished key n a <> sealed C key n ps.
Proof.
  intros Sep a. induction a as [|p a IH]; intros n ps A F P E; [congruence|]. inversion F as [|? ? Fp Fa]; subst. apply chunk_len in Fp.
  destruct ps as [|q ps].
  { apply (f_equal (@length N)) in E. cbn [unfinished sealed] in E. rewrite app_length, (seal_length C L) in E. cbn in E. lia. }
  cbn [unfinished] in E. destruct ps as [|q' ps].
  - destruct P as [_ P]. apply chunk_le in P. cbn [sealed] in E.
    assert (Le : length (unfinished key (n + 1) a) = 0%nat).
    { apply (f_equal (@length N)) in E. rewrite app_length, !(seal_length C L) in E. lia. }
    apply length_zero_iff_nil in Le. rewrite Le, app_nil_r in E.
    assert (O : Open C key (be_bytes 11 n ++ [1]) (Seal C key (be_bytes 11 n ++ [0]) p) = Some q) by (apply (open_seal C L), E).
    rewrite Sep in O; [discriminate|]. intros X. apply app_inv_head in X. discriminate.
  - destruct P as [P1 P]. apply chunk_len in P1. change (sealed C key n (q :: q' :: ps)) with (Seal C key (be_bytes 11 n ++ [0]) q ++ sealed C key (n + 1) (q' :: ps)) in E.
    apply app_inv_length in E; [|rewrite !(seal_length C L); lia]. destruct E as [_ E].
    destruct a as [|p' a].
    + cbn [unfinished] in E. symmetry in E. exact (sealed_nonempty C L key (n + 1) q' ps E).
    + exact (IH (n + 1) (q' :: ps) ltac:(discriminate) Fa P E).
Qed.
End Messages.
