(** Proofs about checksummed Base58, the armor framing and hexadecimal. *)
From Coq Require Import Ascii String.
From Verif Require Import Base Bytes FileModel TextModel TextSpec TextProofs.
Local Open Scope N_scope.
Local Open Scope list_scope.

(* ------------------------------------------------------------------ Split *)
Lemma split_from_run d p : ~ In d p -> forall s tok, split_from d (p ++ s) tok = split_from d s (rev p ++ tok).
Proof.
  induction p as [|c p IH]; intros H s tok; [reflexivity|]. cbn [app split_from].
  destruct (N.eqb_spec c d) as [->|_]; [exfalso; apply H; left; reflexivity|].
  rewrite IH by (intros Hi; apply H; right; exact Hi). cbn [rev]. rewrite <- app_assoc. reflexivity.
Qed.

Lemma Split_delims d n s : Split (repeat d n ++ s) d = Split s d.
Proof. unfold Split. induction n as [|n IH]; [reflexivity|]. cbn [repeat app split_from]. rewrite N.eqb_refl. exact IH. Qed.

Lemma Split_token d p s : p <> [] -> ~ In d p -> Split (p ++ d :: s) d = p :: Split s d.
Proof.
  intros Hp H. unfold Split. rewrite split_from_run by exact H. cbn [split_from]. rewrite N.eqb_refl, app_nil_r.
  destruct (rev p) eqn:E.
  - apply (f_equal (@rev N)) in E. rewrite rev_involutive in E. contradiction.
  - rewrite <- E, rev_involutive. reflexivity.
Qed.

Lemma Split_last d p : p <> [] -> ~ In d p -> Split p d = [p].
Proof.
  intros Hp H. unfold Split. rewrite <- (app_nil_r p) at 1. rewrite split_from_run by exact H. cbn [split_from]. rewrite app_nil_r.
  destruct (rev p) eqn:E.
  - apply (f_equal (@rev N)) in E. rewrite rev_involutive in E. contradiction.
  - rewrite <- E, rev_involutive. reflexivity.
Qed.

Lemma run_split d (s : bytes) : exists p tail, s = p ++ tail /\ ~ In d p /\ (tail = [] \/ exists t, tail = d :: t).
Proof.
  induction s as [|c s IH]; [exists [], []; auto|].
  destruct (N.eq_dec c d) as [->|Hc].
  - exists [], (d :: s). split; [reflexivity|]. split; [intros []|]. right. eauto.
  - destruct IH as (p & tail & -> & Hp & Ht). exists (c :: p), tail. split; [reflexivity|]. split; [|exact Ht].
    intros [<-|Hi]; [apply Hc; reflexivity|contradiction].
Qed.

Lemma Split_shape d s : (exists n, s = repeat d n /\ Split s d = []) \/
  exists n p tail, s = repeat d n ++ p ++ tail /\ p <> [] /\ ~ In d p /\
    ((tail = [] /\ Split s d = [p]) \/ exists t, tail = d :: t /\ Split s d = p :: Split t d).
Proof.
  destruct (run_split d s) as (p & tail & E & Hp & Ht).
  destruct p as [|c p].
  - destruct Ht as [->|[t ->]]; cbn in E; subst s.
    + left. exists O. split; reflexivity.
    + assert (Q : forall t, (exists n, d :: t = repeat d n /\ Split (d :: t) d = []) \/
        exists n p tail, d :: t = repeat d n ++ p ++ tail /\ p <> [] /\ ~ In d p /\
         ((tail = [] /\ Split (d :: t) d = [p]) \/ exists t', tail = d :: t' /\ Split (d :: t) d = p :: Split t' d)); [|apply Q].
      clear. intros t. induction t as [|c t IH].
      * left. exists 1%nat. split; [reflexivity|]. apply (Split_delims d 1 []).
      * destruct (N.eq_dec c d) as [->|Hc].
        -- assert (S1 : Split (d :: d :: t) d = Split (d :: t) d) by apply (Split_delims d 1 (d :: t)). rewrite S1.
           destruct IH as [(n & E & S0)|(n & p & tail & E & H1 & H2 & H3)].
           ++ left. exists (S n). split; [cbn; congruence|exact S0].
           ++ right. exists (S n), p, tail. split; [cbn; congruence|]. auto.
        -- right. destruct (run_split d t) as (q & tail & -> & Hq & Ht).
           assert (Hq2 : ~ In d (c :: q)) by (intros [H|H]; [apply Hc; exact H|contradiction]).
           exists 1%nat, (c :: q), tail. split; [reflexivity|]. split; [discriminate|]. split; [exact Hq2|].
           assert (S1 : Split (d :: c :: q ++ tail) d = Split ((c :: q) ++ tail) d) by apply (Split_delims d 1 ((c :: q) ++ tail)).
           rewrite S1. destruct Ht as [->|[t' ->]].
           ++ left. split; [reflexivity|]. rewrite app_nil_r. apply Split_last; [discriminate|exact Hq2].
           ++ right. exists t'. split; [reflexivity|]. apply Split_token; [discriminate|exact Hq2].
  - right. exists O, (c :: p), tail. split; [exact E|]. split; [discriminate|]. split; [exact Hp|].
    subst s. destruct Ht as [->|[t' ->]].
    + left. split; [reflexivity|]. rewrite app_nil_r. apply Split_last; [discriminate|exact Hp].
    + right. exists t'. split; [reflexivity|]. apply Split_token; [discriminate|exact Hp].
Qed.

Lemma Split_cons d s p ps : Split s d = p :: ps ->
  exists n tail, s = repeat d n ++ p ++ tail /\ p <> [] /\ ~ In d p /\
    ((tail = [] /\ ps = []) \/ exists t, tail = d :: t /\ ps = Split t d).
Proof.
  intros E. destruct (Split_shape d s) as [(n & _ & E')|(n & q & tail & Es & H1 & H2 & H3)]; [congruence|].
  destruct H3 as [[-> E']|[t [-> E']]]; rewrite E' in E; injection E as -> <-; exists n.
  - exists []. repeat split; auto.
  - exists (d :: t). repeat split; auto. right. eauto.
Qed.

(* ------------------------------------------------------------------ checksums *)
Section WithHash.
Variable SHA256 : bytes -> bytes.
Hypothesis hash_size : forall m, length (SHA256 m) = 32%nat /\ is_bytes (SHA256 m).

Lemma check4 m : length (firstn 4 (SHA256d SHA256 m)) = 4%nat.
Proof. rewrite firstn_length. unfold SHA256d. destruct (hash_size (SHA256 m)) as [L _]. rewrite L. reflexivity. Qed.

Lemma check_bytes m : is_bytes (firstn 4 (SHA256d SHA256 m)).
Proof.
  unfold SHA256d. destruct (hash_size (SHA256 m)) as [_ B]. rewrite <- (firstn_skipn 4 (SHA256 (SHA256 m))) in B.
  apply Forall_app in B. tauto.
Qed.

Lemma decode_check_iff s : is_bytes s -> ~ In 0 s ->
  (forall x, DecodeCheck SHA256 s = Ret x <-> base58_text s (x ++ firstn 4 (SHA256d SHA256 x))) /\
  DecodeCheck SHA256 s <> Fault.
Proof.
  intros H H0. unfold DecodeCheck. destruct (decode_true_spec s H H0) as [Q1 Q2].
  destruct (Decode_ s true) as [d| |] eqn:E; cbn [obind].
  - destruct (N.ltb_spec (nlen d) 4) as [Hl|Hl].
    + split; [|discriminate]. intros x. split; [discriminate|]. intros T. apply Q1 in T.
      apply (f_equal (fun o => match o with Ret a => a | _ => d end)) in T. cbv beta iota in T. subst d.
      unfold nlen in Hl. rewrite app_length, check4 in Hl. lia.
    + unfold nlen in Hl. set (n := (length d - 4)%nat).
      destruct (bytes_eqb (firstn 4 (SHA256d SHA256 (firstn n d))) (skipn n d)) eqn:Eb.
      * apply bytes_eqb_spec in Eb. split; [|discriminate]. intros x. split.
        -- intros Ex. apply (f_equal (fun o => match o with Ret a => a | _ => x end)) in Ex. cbv beta iota in Ex. subst x.
           rewrite Eb, firstn_skipn. apply Q1. reflexivity.
        -- intros T. apply Q1 in T. apply (f_equal (fun o => match o with Ret a => a | _ => d end)) in T. cbv beta iota in T.
           f_equal. rewrite T. replace n with (length x + 0)%nat.
           ++ rewrite firstn_app_2. cbn. apply app_nil_r.
           ++ subst n. rewrite T, app_length, check4. lia.
      * apply bytes_eqb_false in Eb. split; [|discriminate]. intros x. split; [discriminate|]. intros T. apply Q1 in T.
        apply (f_equal (fun o => match o with Ret a => a | _ => d end)) in T. cbv beta iota in T. exfalso. apply Eb.
        assert (En : n = length x) by (subst n; rewrite T, app_length, check4; lia).
        rewrite T, En. rewrite skipn_app, Nat.sub_diag, skipn_all.
        replace (length x) with (length x + 0)%nat at 1 by lia. rewrite firstn_app_2. cbn [firstn skipn app].
        rewrite app_nil_r. reflexivity.
  - split; [|discriminate]. intros x. split; [discriminate|]. intros T. apply Q1 in T. discriminate.
  - contradiction.
Qed.

Lemma encode_check_text x : is_bytes x ->
  exists s, EncodeCheck SHA256 x = Ret s /\ base58_text s (x ++ firstn 4 (SHA256d SHA256 x)) /\ Forall text_char s.
Proof.
  intros H. apply encode_true_text. apply Forall_app; split; [exact H|apply check_bytes].
Qed.

Lemma check_roundtrip x : is_bytes x -> exists s, EncodeCheck SHA256 x = Ret s /\ DecodeCheck SHA256 s = Ret x.
Proof.
  intros H. destruct (encode_check_text x H) as (s & E & T & C). exists s. split; [exact E|].
  apply (decode_check_iff s (text_bytes s C) (text_no_nul s C)). exact T.
Qed.

Lemma simple_check_iff s : is_bytes s -> ~ In 0 s ->
  (forall x, SimpleDecodeCheck SHA256 s = Ret x <-> base58_number s (firstn 4 (SHA256d SHA256 x) ++ x)) /\
  SimpleDecodeCheck SHA256 s <> Fault.
Proof.
  intros H H0. unfold SimpleDecodeCheck. destruct (decode_false_spec s H H0) as [Q1 Q2].
  destruct (Decode_ s false) as [d| |] eqn:E; cbn [obind].
  - destruct (N.ltb_spec (nlen d) 4) as [Hl|Hl].
    + split; [|discriminate]. intros x. split; [discriminate|]. intros T. apply Q1 in T.
      apply (f_equal (fun o => match o with Ret a => a | _ => d end)) in T. cbv beta iota in T. subst d.
      unfold nlen in Hl. rewrite app_length, check4 in Hl. lia.
    + unfold nlen in Hl.
      destruct (bytes_eqb (firstn 4 (SHA256d SHA256 (skipn 4 d))) (firstn 4 d)) eqn:Eb.
      * apply bytes_eqb_spec in Eb. split; [|discriminate]. intros x. split.
        -- intros Ex. apply (f_equal (fun o => match o with Ret a => a | _ => x end)) in Ex. cbv beta iota in Ex. subst x.
           rewrite Eb, firstn_skipn. apply Q1. reflexivity.
        -- intros T. apply Q1 in T. apply (f_equal (fun o => match o with Ret a => a | _ => d end)) in T. cbv beta iota in T.
           f_equal. rewrite T. rewrite skipn_app, check4. change (4 - 4)%nat with O. rewrite skipn_O.
           rewrite skipn_all2 by (rewrite check4; lia). reflexivity.
      * apply bytes_eqb_false in Eb. split; [|discriminate]. intros x. split; [discriminate|]. intros T. apply Q1 in T.
        apply (f_equal (fun o => match o with Ret a => a | _ => d end)) in T. cbv beta iota in T. exfalso. apply Eb.
        rewrite T. rewrite skipn_app, firstn_app, check4. change (4 - 4)%nat with O. rewrite skipn_O, firstn_O.
        rewrite skipn_all2 by (rewrite check4; lia). rewrite firstn_firstn, app_nil_r. reflexivity.
  - split; [|discriminate]. intros x. split; [discriminate|]. intros T. apply Q1 in T. discriminate.
  - contradiction.
Qed.

Lemma skip_zeroes_id l : no_leading_zero l -> skip_zeroes l = l.
Proof. destruct l as [|d l]; [reflexivity|]. cbn. intros H. apply N.eqb_neq in H. rewrite H. reflexivity. Qed.

Lemma simple_check_text x : is_bytes x ->
  exists s, SimpleEncodeCheck SHA256 x = Ret s /\ Forall text_char s /\
    Decode_ s false = Ret (skip_zeroes (firstn 4 (SHA256d SHA256 x) ++ x)).
Proof.
  intros H. destruct (simple_roundtrip (firstn 4 (SHA256d SHA256 x) ++ x)) as (s & E & D & C).
  - apply Forall_app; split; [apply check_bytes|exact H].
  - exists s. auto.
Qed.

Definition first_check_byte (x : bytes) : N := nth 0 (SHA256d SHA256 x) 0.

Lemma check_head x : exists l, firstn 4 (SHA256d SHA256 x) = first_check_byte x :: l /\ length l = 3%nat.
Proof.
  pose proof (check4 x) as L. unfold first_check_byte. destruct (SHA256d SHA256 x) as [|b h]; [discriminate L|].
  change (firstn 4 (b :: h)) with (b :: firstn 3 h) in *. exists (firstn 3 h). split; [reflexivity|]. cbn [length] in L. lia.
Qed.

Lemma simple_check_roundtrip x : is_bytes x -> first_check_byte x <> 0 ->
  exists s, SimpleEncodeCheck SHA256 x = Ret s /\ SimpleDecodeCheck SHA256 s = Ret x /\ Forall text_char s /\ s <> [].
Proof.
  intros H Hb. destruct (simple_check_text x H) as (s & E & C & D). exists s.
  destruct (check_head x) as (l & El & Ll).
  assert (Nz : no_leading_zero (firstn 4 (SHA256d SHA256 x) ++ x)) by (rewrite El; exact Hb).
  rewrite (skip_zeroes_id _ Nz) in D.
  split; [exact E|]. split; [|split; [exact C|]].
  - apply (simple_check_iff s (text_bytes s C) (text_no_nul s C)).
    apply (decode_false_spec s (text_bytes s C) (text_no_nul s C)). exact D.
  - intros ->. rewrite El in D. vm_compute in D. discriminate D.
Qed.

Lemma skip_zeroes_length l : (length (skip_zeroes l) <= length l)%nat.
Proof. induction l as [|d l IH]; [reflexivity|]. cbn [skip_zeroes]. destruct (d =? 0); cbn; lia. Qed.

(** a zero first checksum byte is always fatal *)
Lemma simple_check_lost x s : is_bytes x -> first_check_byte x = 0 ->
  SimpleEncodeCheck SHA256 x = Ret s -> SimpleDecodeCheck SHA256 s <> Ret x.
Proof.
  intros H Hb E R. destruct (simple_check_text x H) as (s' & E' & C & D). rewrite E in E'.
  apply (f_equal (fun o => match o with Ret a => a | _ => s end)) in E'. cbv beta iota in E'. subst s'.
  apply (simple_check_iff s (text_bytes s C) (text_no_nul s C)) in R.
  apply (decode_false_spec s (text_bytes s C) (text_no_nul s C)) in R. rewrite D in R.
  apply (f_equal (fun o => match o with Ret a => length a | _ => O end)) in R. cbv beta iota in R.
  destruct (check_head x) as (l & El & Ll). rewrite El, Hb in R. cbn [app skip_zeroes length] in R.
  change (0 =? 0) with true in R. cbv iota in R. pose proof (skip_zeroes_length (l ++ x)). lia.
Qed.

(* ------------------------------------------------------------------ armor *)
Definition keep (c : N) : bool := negb (IsSpace c).

Lemma filter_text s : Forall text_char s -> filter keep s = s.
Proof.
  induction 1 as [|c s Hc H IH]; [reflexivity|]. cbn [filter]. unfold keep at 1.
  destruct Hc as (_ & _ & Hb & _). apply IsSpace_nblank in Hb. rewrite Hb. cbn. rewrite IH. reflexivity.
Qed.

Lemma filter_spacing s : forall i, filter keep (format_spacing_from i s) = filter keep s.
Proof.
  induction s as [|c s IH]; intros i; [reflexivity|]. cbn [format_spacing_from]. rewrite filter_app.
  cbn [filter]. rewrite IH.
  destruct (negb (i =? 0) && (i mod WORD_LENGTH =? 0)); [|reflexivity].
  destruct (i mod (WORD_LENGTH * WORDS_PER_LINE) =? 0); reflexivity.
Qed.

Lemma text_no_dot s : Forall text_char s -> ~ In 46 s.
Proof. intros H Hi. rewrite Forall_forall in H. destruct (H 46 Hi) as (_ & _ & _ & Q). congruence. Qed.

Lemma pack_spec x : is_bytes x ->
  exists s b, PackBytes SHA256 x = Ret s /\ SimpleEncodeCheck SHA256 x = Ret b /\
    (b <> [] -> UnpackBytes SHA256 s = SimpleDecodeCheck SHA256 b) /\
    (b = [] -> UnpackBytes SHA256 s = Throw).
Proof.
  intros H. destruct (simple_check_text x H) as (b & E & C & _). unfold PackBytes. rewrite E. cbn [obind].
  eexists. exists b. split; [reflexivity|]. split; [reflexivity|].
  assert (F : filter keep (HEADER ++ chars ". " ++ FormatSpacing b ++ chars ". " ++ FOOTER ++ chars ".")
            = HEADER ++ 46 :: b ++ 46 :: FOOTER ++ [46]).
  { rewrite !filter_app. unfold FormatSpacing. rewrite filter_spacing, (filter_text b C). reflexivity. }
  unfold UnpackBytes. fold keep. rewrite F. split.
  - intros Hb. rewrite Split_token; [|discriminate|vm_compute; intuition discriminate].
    rewrite Split_token; [|exact Hb|apply text_no_dot; exact C].
    change (Split (FOOTER ++ [46]) 46) with [FOOTER]. cbv iota. rewrite !bytes_eqb_refl. reflexivity.
  - intros ->. rewrite Split_token; [|discriminate|vm_compute; intuition discriminate].
    reflexivity.
Qed.

Lemma armor_roundtrip x : is_bytes x -> first_check_byte x <> 0 ->
  exists s, PackBytes SHA256 x = Ret s /\ UnpackBytes SHA256 s = Ret x.
Proof.
  intros H Hb. destruct (pack_spec x H) as (s & b & E & Eb & Q & _).
  destruct (simple_check_roundtrip x H Hb) as (b' & Eb' & D & _ & Hn). rewrite Eb in Eb'.
  apply (f_equal (fun o => match o with Ret a => a | _ => b end)) in Eb'. cbv beta iota in Eb'. subst b'.
  exists s. split; [exact E|]. rewrite (Q Hn). exact D.
Qed.

Lemma armor_lost x s : is_bytes x -> first_check_byte x = 0 -> PackBytes SHA256 x = Ret s -> UnpackBytes SHA256 s <> Ret x.
Proof.
  intros H Hb E. destruct (pack_spec x H) as (s' & b & E' & Eb & Q1 & Q2). rewrite E in E'.
  apply (f_equal (fun o => match o with Ret a => a | _ => s end)) in E'. cbv beta iota in E'. subst s'.
  destruct b as [|c b]; [rewrite Q2 by reflexivity; discriminate|].
  rewrite Q1 by discriminate. apply simple_check_lost; assumption.
Qed.

Lemma unblank_filter s : unblank s = filter keep s.
Proof.
  unfold unblank. apply filter_ext. intros c. unfold keep, IsSpace. f_equal.
  destruct (N.leb_spec 9 c), (N.leb_spec c 13), (N.eqb_spec c 32), (N.eqb_spec c 12), (N.eqb_spec c 10), (N.eqb_spec c 13), (N.eqb_spec c 9), (N.eqb_spec c 11); try reflexivity; lia.
Qed.

Lemma filter_bytes f s : is_bytes s -> is_bytes (filter f s).
Proof. intros H. apply Forall_forall. intros x Hx. apply filter_In in Hx. unfold is_bytes in H. rewrite Forall_forall in H. apply H. tauto. Qed.

Lemma unpack_only s x : is_bytes s -> ~ In 0 s -> UnpackBytes SHA256 s = Ret x ->
  exists n0 n1 n2 payload tail,
    unblank s = repeat 46 n0 ++ text "BEGINSLATEPACK" ++ repeat 46 (S n1) ++ payload ++ repeat 46 (S n2) ++ text "ENDSLATEPACK" ++ tail /\
    (tail = [] \/ exists t, tail = 46 :: t) /\ ~ In 46 payload /\
    base58_number payload (firstn 4 (SHA256d SHA256 x) ++ x).
Proof.
  intros H H0 E. rewrite unblank_filter. unfold UnpackBytes in E. fold keep in E. cbn zeta in E.
  assert (Hb : is_bytes (filter keep s)) by (apply filter_bytes; exact H).
  assert (Hz : ~ In 0 (filter keep s)). { intros Hi. apply filter_In in Hi. tauto. }
  remember (filter keep s) as cl.
  destruct (Split cl 46) as [|p0 [|p1 [|p2 ps]]] eqn:Es; try discriminate E.
  destruct (negb (bytes_eqb p0 HEADER) || negb (bytes_eqb p2 FOOTER)) eqn:Eq; [discriminate E|].
  apply orb_false_iff in Eq. destruct Eq as [Q0 Q2]. apply negb_false_iff, bytes_eqb_spec in Q0, Q2.
  destruct (Split_cons _ _ _ _ Es) as (n0 & t0 & E0 & _ & _ & [[_ X]|(t0' & T0 & X)]); [discriminate|]. symmetry in X.
  destruct (Split_cons _ _ _ _ X) as (n1 & t1 & E1 & _ & D1 & [[_ Y]|(t1' & T1 & Y)]); [discriminate|]. symmetry in Y.
  destruct (Split_cons _ _ _ _ Y) as (n2 & t2 & E2 & _ & _ & Z).
  assert (Ecl : cl = repeat 46 n0 ++ text "BEGINSLATEPACK" ++ repeat 46 (S n1) ++ p1 ++ repeat 46 (S n2) ++ text "ENDSLATEPACK" ++ t2).
  { rewrite E0, T0, E1, T1, E2, Q0, Q2. reflexivity. }
  exists n0, n1, n2, p1, t2. split; [exact Ecl|]. split.
  { destruct Z as [[-> _]|(t & -> & _)]; [left; reflexivity|right; eauto]. }
  split; [exact D1|].
  assert (Hb1 : is_bytes p1).
  { rewrite Ecl in Hb. apply Forall_app in Hb. destruct Hb as [_ Hb]. apply Forall_app in Hb. destruct Hb as [_ Hb].
    apply Forall_app in Hb. destruct Hb as [_ Hb]. apply Forall_app in Hb. tauto. }
  assert (Hz1 : ~ In 0 p1).
  { intros Hi. apply Hz. rewrite Ecl. do 3 (apply in_or_app; right). apply in_or_app. left. exact Hi. }
  apply (simple_check_iff p1 Hb1 Hz1). exact E.
Qed.
End WithHash.

(* ------------------------------------------------------------------ hexadecimal *)
Lemma hex_index_spec c d : c < 256 -> (hex_index c = Some d <-> hex_digit c d).
Proof.
  intros Hc. unfold hex_digit, digit_in.
  assert (A : all_below 256 (fun c =>
     match hex_index c with
     | Some d => match nth_error (text "0123456789abcdef") (N.to_nat d), nth_error (text "0123456789ABCDEF") (N.to_nat d) with
                 | Some x, Some y => (x =? c) || (y =? c) | _, _ => false end
     | None => negb (existsb (N.eqb c) (text "0123456789abcdefABCDEF"))
     end) = true) by (vm_compute; reflexivity).
  assert (B : all_below 16 (fun d =>
     match nth_error (text "0123456789abcdef") (N.to_nat d), nth_error (text "0123456789ABCDEF") (N.to_nat d) with
     | Some x, Some y => match hex_index x, hex_index y with Some d', Some d'' => (d' =? d) && (d'' =? d) | _, _ => false end
     | _, _ => false end) = true) by (vm_compute; reflexivity).
  split; intros H.
  - pose proof (all_below_ok _ _ A c Hc) as Q. cbn beta in Q. rewrite H in Q.
    destruct (nth_error (text "0123456789abcdef") (N.to_nat d)) as [x|]; [|discriminate].
    destruct (nth_error (text "0123456789ABCDEF") (N.to_nat d)) as [y|]; [|discriminate].
    apply orb_true_iff in Q. rewrite !N.eqb_eq in Q. destruct Q as [->| ->]; auto.
  - assert (Hd : d < 16).
    { destruct H as [H|H]; assert (L := H); (assert (L2 : (N.to_nat d < 16)%nat); [|lia]).
      - change 16%nat with (length (text "0123456789abcdef")). apply nth_error_Some. congruence.
      - change 16%nat with (length (text "0123456789ABCDEF")). apply nth_error_Some. congruence. }
    pose proof (all_below_ok _ _ B d Hd) as Q. cbn beta in Q.
    destruct (nth_error (text "0123456789abcdef") (N.to_nat d)) as [x|]; [|discriminate].
    destruct (nth_error (text "0123456789ABCDEF") (N.to_nat d)) as [y|]; [|discriminate].
    destruct (hex_index x) as [d'|] eqn:Ex; [|discriminate]. destruct (hex_index y) as [d''|] eqn:Ey; [|discriminate].
    apply andb_true_iff in Q. rewrite !N.eqb_eq in Q. destruct Q as [-> ->]. destruct H as [H|H]; injection H as <-; assumption.
Qed.

Lemma hex_index_bound c d : hex_index c = Some d -> d < 16.
Proof.
  unfold hex_index. intros H.
  destruct (_ && _) eqn:E1 in H; [injection H as <-|]; [lia|].
  destruct (_ && _) eqn:E2 in H; [injection H as <-|]; [lia|].
  destruct (_ && _) eqn:E3 in H; [injection H as <-|discriminate]; lia.
Qed.

Lemma hex_decode_spec s : is_bytes s -> forall d, hex_lower_decode s = Ret d <-> hex_pairs s d.
Proof.
  remember (length s) as n eqn:En. assert (Hn : (length s <= n)%nat) by lia. clear En. revert s Hn.
  induction n as [|n IH]; intros s Hn H d.
  - destruct s; [|cbn in Hn; lia]. cbn. split; [intros E; injection E as <-; constructor|intros E; inversion E; reflexivity].
  - destruct s as [|a [|b s]].
    + cbn. split; [intros E; injection E as <-; constructor|intros E; inversion E; reflexivity].
    + cbn. split; [discriminate|intros E; inversion E].
    + inversion H as [|? ? Ha H']; subst. inversion H' as [|? ? Hb Hs]; subst. cbn in Hn. cbn [hex_lower_decode].
      specialize (IH s ltac:(lia) Hs). split.
      * destruct (hex_index a) as [x|] eqn:Ex; [|discriminate]. destruct (hex_index b) as [y|] eqn:Ey; [|discriminate].
        pose proof (hex_index_bound _ _ Ex). pose proof (hex_index_bound _ _ Ey).
        destruct (hex_lower_decode s) as [r| |]; cbn [obind]; [|discriminate|discriminate].
        intros E. apply (f_equal (fun o => match o with Ret a => a | _ => d end)) in E. cbv beta iota in E. subst d.
        constructor; [lia| | |].
        -- apply hex_index_spec; [exact Ha|]. replace ((16 * x + y) / 16) with x by lia. exact Ex.
        -- apply hex_index_spec; [exact Hb|]. replace ((16 * x + y) mod 16) with y by lia. exact Ey.
        -- apply IH. reflexivity.
      * intros E. inversion E as [|? ? x ? data Hx Hda Hdb Hp]; subst.
        apply hex_index_spec in Hda; [|exact Ha]. apply hex_index_spec in Hdb; [|exact Hb]. rewrite Hda, Hdb.
        apply IH in Hp. rewrite Hp. cbn [obind]. f_equal. f_equal. lia.
Qed.

Lemma hex_decode_no_fault s : hex_lower_decode s <> Fault.
Proof.
  remember (length s) as n eqn:En. assert (Hn : (length s <= n)%nat) by lia. clear En. revert s Hn.
  induction n as [|n IH]; intros s Hn; [destruct s; [discriminate|cbn in Hn; lia]|].
  destruct s as [|a [|b s]]; try discriminate. cbn [hex_lower_decode]. cbn in Hn.
  destruct (hex_index a); [|discriminate]. destruct (hex_index b); [|discriminate].
  specialize (IH s ltac:(lia)). destruct (hex_lower_decode s); [discriminate|discriminate|contradiction].
Qed.

Lemma hex_index_lower c : hex_index (tolower c) = hex_index c.
Proof.
  assert (A : all_below 91 (fun c => match hex_index (tolower c), hex_index c with
      | Some x, Some y => x =? y | None, None => true | _, _ => false end) = true) by (vm_compute; reflexivity).
  destruct (N.lt_ge_cases c 91) as [H|H].
  - pose proof (all_below_ok _ _ A c H) as Q. cbn beta in Q. clear A.
    destruct (hex_index (tolower c)), (hex_index c); try discriminate; [apply N.eqb_eq in Q; congruence|reflexivity].
  - unfold tolower. replace (c <=? 90) with false by (symmetry; apply N.leb_gt; lia). rewrite andb_false_r. reflexivity.
Qed.

Lemma hex_decode_lower s : hex_lower_decode (map tolower s) = hex_lower_decode s.
Proof.
  remember (length s) as n eqn:En. assert (Hn : (length s <= n)%nat) by lia. clear En. revert s Hn.
  induction n as [|n IH]; intros s Hn; [destruct s; [reflexivity|cbn in Hn; lia]|].
  destruct s as [|a [|b s]]; try reflexivity. cbn [map hex_lower_decode]. cbn in Hn.
  rewrite !hex_index_lower, IH by lia. reflexivity.
Qed.

Lemma tolower_blank c : blank (tolower c) <-> blank c.
Proof. unfold tolower, blank. destruct ((65 <=? c) && (c <=? 90)) eqn:E; lia. Qed.

Lemma tolower_byte c : c < 256 -> tolower c < 256.
Proof. unfold tolower. destruct ((65 <=? c) && (c <=? 90)) eqn:E; lia. Qed.

Lemma Trim_mid lead m trail : blanks lead -> blanks trail -> Forall (fun c => ~ blank c) m -> Trim (lead ++ m ++ trail) = m.
Proof.
  intros B B' H. unfold Trim. destruct (skip_spaces_mid lead m trail B B' H) as (t & Bt & ->).
  rewrite rev_app_distr. destruct (skip_spaces_mid (rev t) (rev m) []) as (t2 & B2 & E).
  - apply Forall_rev; exact Bt.
  - constructor.
  - apply Forall_rev; exact H.
  - rewrite app_nil_r in E. rewrite E, rev_app_distr, rev_involutive.
    assert (Et : t2 = []).
    { destruct t2 as [|c t2]; [reflexivity|exfalso].
      pose proof (f_equal (@length N) E) as L. rewrite app_length in L. cbn in L.
      destruct (skip_spaces_spec (rev t ++ rev m)) as (ld & E2 & Bl & _). rewrite E in E2.
      destruct (rev m) as [|x rm] eqn:Em.
      - rewrite app_nil_r in E. assert (Q : skip_spaces (rev t) = []) by (apply skip_spaces_nil, Forall_rev; exact Bt).
        rewrite Q in E. discriminate.
      - assert (Hx : ~ blank x).
        { assert (Forall (fun c => ~ blank c) (x :: rm)) as F by (rewrite <- Em; apply Forall_rev; exact H). inversion F; assumption. }
        rewrite skip_spaces_app in E; [|apply Forall_rev; exact Bt|exact Hx].
        rewrite <- (app_nil_r (x :: rm)) in E at 1. apply app_inv_head in E. discriminate. }
    rewrite Et. reflexivity.
Qed.

Lemma Trim_parts s : exists lead trail, s = lead ++ Trim s ++ trail /\ blanks lead /\ blanks trail.
Proof.
  unfold Trim. destruct (skip_spaces_spec s) as (lead & E & B & _).
  destruct (skip_spaces_spec (rev (skip_spaces s))) as (t & E2 & B2 & _).
  exists lead, (rev t). split; [|split; [exact B|apply Forall_rev; exact B2]].
  rewrite E at 1. f_equal. apply (f_equal (@rev N)) in E2. rewrite rev_involutive, rev_app_distr in E2. exact E2.
Qed.

Lemma hex_pairs_chars s d : is_bytes s -> hex_pairs s d -> Forall (fun c => exists x, hex_index c = Some x) s.
Proof.
  intros H P. induction P as [|a b x s d Hx Ha Hb P IH]; [constructor|].
  inversion H as [|? ? H1 H2]; subst. inversion H2 as [|? ? H3 H4]; subst.
  constructor; [exists (x / 16); apply hex_index_spec; assumption|].
  constructor; [exists (x mod 16); apply hex_index_spec; assumption|]. apply IH. assumption.
Qed.

Lemma hex_char_is c x : hex_index c = Some x -> is_hex_char c = true /\ ~ blank c /\ c <> 120.
Proof.
  intros H. assert (Hc : c < 256).
  { unfold hex_index in H. destruct (_ && _) eqn:E1 in H; [lia|]. destruct (_ && _) eqn:E2 in H; [lia|]. destruct (_ && _) eqn:E3 in H; [lia|discriminate]. }
  assert (A : all_below 256 (fun c => match hex_index c with Some _ => is_hex_char c && negb (IsSpace c) && negb (c =? 120) | None => true end) = true)
    by (vm_compute; reflexivity).
  pose proof (all_below_ok _ _ A c Hc) as Q. cbn beta in Q. rewrite H in Q.
  rewrite !andb_true_iff, !negb_true_iff in Q. destruct Q as ((Q1 & Q2) & Q3).
  apply IsSpace_nblank in Q2. apply N.eqb_neq in Q3. auto.
Qed.

Lemma decode_hex_chars s d : hex_lower_decode s = Ret d -> Forall (fun c => exists x, hex_index c = Some x) s.
Proof.
  remember (length s) as n eqn:En. assert (Hn : (length s <= n)%nat) by lia. clear En. revert s Hn d.
  induction n as [|n IH]; intros s Hn d; [destruct s; [constructor|cbn in Hn; lia]|].
  destruct s as [|a [|b s]]; [constructor|discriminate|]. cbn [hex_lower_decode]. cbn in Hn.
  destruct (hex_index a) as [x|] eqn:Ex; [|discriminate]. destruct (hex_index b) as [y|] eqn:Ey; [|discriminate].
  destruct (hex_lower_decode s) as [r| |] eqn:Er; [|discriminate|discriminate]. intros _.
  constructor; [eauto|]. constructor; [eauto|]. eapply IH; [lia|exact Er].
Qed.

Lemma valid_of_chars s : Forall (fun c => exists x, hex_index c = Some x) s -> IsValidHex s = true.
Proof.
  intros H. unfold IsValidHex.
  assert (F : forallb is_hex_char s = true).
  { apply forallb_forall. intros c Hc. rewrite Forall_forall in H. destruct (H c Hc) as [x Hx]. apply (hex_char_is c x Hx). }
  destruct ((2 <? nlen s) && bytes_eqb (firstn 2 s) (chars "0x")) eqn:E; [|exact F].
  apply andb_true_iff in E. destruct E as [_ E]. apply bytes_eqb_spec in E. destruct s as [|a [|b s]]; [discriminate E|discriminate E|].
  assert (Eb : b = 120) by (injection E; auto). inversion H as [|? ? _ H2]; subst. inversion H2 as [|? ? [x Hx] _]; subst.
  destruct (hex_char_is _ _ Hx) as (_ & _ & Q). congruence.
Qed.

Lemma StartsWith_iff s p : StartsWith s p = true <-> exists r, s = p ++ r.
Proof.
  unfold StartsWith, nlen. split.
  - destruct (N.ltb_spec (N.of_nat (length s)) (N.of_nat (length p))); [discriminate|].
    intros E. apply bytes_eqb_spec in E. exists (skipn (length p) s). rewrite <- E at 1. symmetry. apply firstn_skipn.
  - intros [r ->]. rewrite app_length. destruct (N.ltb_spec (N.of_nat (length p + length r)) (N.of_nat (length p))); [lia|].
    apply bytes_eqb_spec. rewrite firstn_app, Nat.sub_diag, firstn_all. cbn. apply app_nil_r.
Qed.

Lemma FromHex_eq s : FromHex s =
  (let t := Trim (map tolower s) in
   let b := if StartsWith t (chars "0x") then skipn 2 t else t in
   if IsValidHex b then hex_lower_decode b else Throw).
Proof. unfold FromHex, ToLower. cbn zeta. destruct (IsValidHex _); reflexivity. Qed.

Lemma fromhex_iff s : is_bytes s -> (forall d, FromHex s = Ret d <-> hex_text s d) /\ FromHex s <> Fault.
Proof.
  intros H. rewrite FromHex_eq. cbn zeta. split.
  2: { destruct (IsValidHex _); [apply hex_decode_no_fault|discriminate]. }
  intros d. split.
  - intros E. set (t := Trim (map tolower s)) in *.
    destruct (IsValidHex _); [|discriminate].
    destruct (Trim_parts (map tolower s)) as (lead & trail & Et & Bl & Bt). fold t in Et.
    apply map_eq_app in Et.
    assert (Sp : exists ls ms ts, s = ls ++ ms ++ ts /\ map tolower ls = lead /\ map tolower ms = t /\ map tolower ts = trail).
    { clear - Et. destruct Et as (l1 & l2 & -> & E1 & E2).
      apply map_eq_app in E2. destruct E2 as (l3 & l4 & -> & E3 & E4). exists l1, l3, l4. auto. }
    destruct Sp as (ls & ms & ts & -> & Els & Ems & Ets).
    assert (Hls : blanks ls).
    { unfold blanks in *. rewrite <- Els, Forall_map in Bl. eapply Forall_impl; [|exact Bl]. intros c Hc. apply tolower_blank. exact Hc. }
    assert (Hts : blanks ts).
    { unfold blanks in *. rewrite <- Ets, Forall_map in Bt. eapply Forall_impl; [|exact Bt]. intros c Hc. apply tolower_blank. exact Hc. }
    assert (Hms : is_bytes ms) by (apply Forall_app in H; destruct H as [_ H]; apply Forall_app in H; tauto).
    destruct (StartsWith t (chars "0x")) eqn:Ew.
    + apply StartsWith_iff in Ew. destruct Ew as [r Er]. rewrite Er in E. cbn [chars] in E. change (skipn 2 (chars "0x" ++ r)) with r in E.
      rewrite Er in Ems. destruct ms as [|a [|b ms]]; [discriminate Ems|discriminate Ems|]. cbn [map] in Ems.
      assert (Ea : tolower a = 48) by (injection Ems; auto). assert (Eb : tolower b = 120) by (injection Ems; auto).
      assert (Er2 : map tolower ms = r) by (injection Ems; auto). rewrite <- Er2, hex_decode_lower in E.
      inversion Hms as [|? ? Ha H1]; subst. inversion H1 as [|? ? Hb H2]; subst.
      exists ls, [a; b], ms, ts. split; [reflexivity|]. split; [exact Hls|]. split; [exact Hts|]. split.
      * right. unfold tolower in Ea, Eb.
        assert (a = 48) by (destruct ((65 <=? a) && (a <=? 90)) eqn:Q; lia). subst a.
        assert (b = 120 \/ b = 88) as [-> | ->] by (destruct ((65 <=? b) && (b <=? 90)) eqn:Q; lia); [left|right]; reflexivity.
      * apply hex_decode_spec; assumption.
    + rewrite <- Ems, hex_decode_lower in E. exists ls, [], ms, ts.
      split; [reflexivity|]. split; [exact Hls|]. split; [exact Hts|]. split; [left; reflexivity|].
      apply hex_decode_spec; assumption.
  - intros (lead & pre & body & trail & -> & Bl & Bt & Hp & P).
    assert (Hb : is_bytes body) by (apply Forall_app in H; destruct H as [_ H]; apply Forall_app in H; destruct H as [_ H]; apply Forall_app in H; tauto).
    pose proof (hex_pairs_chars body d Hb P) as Hc. apply hex_decode_spec in P; [|exact Hb].
    assert (Hcl : Forall (fun c => exists x, hex_index c = Some x) (map tolower body)).
    { apply Forall_map. eapply Forall_impl; [|exact Hc]. intros c [x Hx]. exists x. rewrite hex_index_lower. exact Hx. }
    assert (Et : Trim (map tolower (lead ++ pre ++ body ++ trail)) = map tolower pre ++ map tolower body).
    { rewrite !map_app. rewrite (app_assoc (map tolower pre)). apply Trim_mid.
      - apply Forall_map. eapply Forall_impl; [|exact Bl]. intros c Q. apply tolower_blank. exact Q.
      - apply Forall_map. eapply Forall_impl; [|exact Bt]. intros c Q. apply tolower_blank. exact Q.
      - apply Forall_app; split.
        + destruct Hp as [->|[->| ->]]; [constructor| |]; (constructor; [vm_compute; intuition discriminate|constructor; [vm_compute; intuition discriminate|constructor]]).
        + eapply Forall_impl; [|exact Hcl]. intros c [x Hx]. apply (hex_char_is c x Hx). }
    rewrite Et.
    assert (Eb : (if StartsWith (map tolower pre ++ map tolower body) (chars "0x") then skipn 2 (map tolower pre ++ map tolower body)
                  else map tolower pre ++ map tolower body) = map tolower body).
    { destruct Hp as [->|Hp].
      - cbn [map app]. destruct (StartsWith (map tolower body) (chars "0x")) eqn:Ew; [|reflexivity].
        apply StartsWith_iff in Ew. destruct Ew as [r Er]. rewrite Er in Hcl. inversion Hcl as [|? ? _ H2]; subst.
        inversion H2 as [|? ? [x Hx] _]; subst. destruct (hex_char_is _ _ Hx) as (_ & _ & Q). exfalso. apply Q. reflexivity.
      - assert (Ep : map tolower pre = chars "0x") by (destruct Hp as [->| ->]; reflexivity). rewrite Ep.
        assert (Ew : StartsWith (chars "0x" ++ map tolower body) (chars "0x") = true) by (apply StartsWith_iff; eauto).
        rewrite Ew. reflexivity. }
    rewrite Eb, (valid_of_chars _ Hcl), hex_decode_lower. exact P.
Qed.

Lemma hex_symbol_digit d : d < 16 -> hex_index (hex_symbol d) = Some d.
Proof.
  intros H. assert (A : all_below 16 (fun d => match hex_index (hex_symbol d) with Some x => x =? d | None => false end) = true) by (vm_compute; reflexivity).
  pose proof (all_below_ok _ _ A d H) as Q. cbn beta in Q. destruct (hex_index (hex_symbol d)); [|discriminate].
  apply N.eqb_eq in Q. congruence.
Qed.

Lemma hex_encode_pairs data : is_bytes data -> hex_pairs (ConvertToHex data) data /\ is_bytes (ConvertToHex data).
Proof.
  induction 1 as [|x data Hx H IH]; [split; constructor|]. unfold ConvertToHex, hex_lower_encode in *. cbn [flat_map app].
  destruct IH as [P B].
  assert (S1 : hex_index (hex_symbol (x / 16)) = Some (x / 16)) by (apply hex_symbol_digit; lia).
  assert (S2 : hex_index (hex_symbol (x mod 16)) = Some (x mod 16)) by (apply hex_symbol_digit; lia).
  assert (B1 : forall d, d < 16 -> hex_symbol d < 256).
  { intros d Hd. assert (A : all_below 16 (fun d => hex_symbol d <? 256) = true) by (vm_compute; reflexivity).
    pose proof (all_below_ok _ _ A d Hd) as Q. apply N.ltb_lt. exact Q. }
  split.
  - constructor; auto; apply hex_index_spec; auto; apply B1; lia.
  - repeat constructor; auto; apply B1; lia.
Qed.

Lemma hex_roundtrip data : is_bytes data -> FromHex (ConvertToHex data) = Ret data.
Proof.
  intros H. destruct (hex_encode_pairs data H) as [P B]. apply (fromhex_iff _ B).
  exists [], [], (ConvertToHex data), []. rewrite app_nil_r. repeat split; auto; constructor.
Qed.
