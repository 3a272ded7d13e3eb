(** Proofs about queries. *)
From Coq Require Import Ascii String.
From Verif Require Import Base Bytes FileModel SerialModel TextModel TextSpec TextProofs TextCheck KeyPathModel KeyPathSpec KeyPathProofs QueryModel QuerySpec.
From Verif Require TextProps.
Local Open Scope N_scope.
Local Open Scope list_scope.

(** * Hexadecimal *)
Lemma in_alphabet al c d : digit_in al c d -> In c al.
Proof. apply nth_error_In. Qed.
Lemma hex_digit_char c d : hex_digit c d -> is_hex_char c = true /\ c < 128 /\ c <> 120.
Proof.
  intros [H|H]; apply in_alphabet in H; cbv in H; repeat destruct H as [<-|H]; try contradiction; (split; [reflexivity|split; [reflexivity|discriminate]]).
Qed.
Lemma hex_pairs_facts t d : hex_pairs t d -> length t = (2 * length d)%nat /\ forallb is_hex_char t = true /\ is_bytes t /\ nth 1 t 0 <> 120.
Proof.
  induction 1 as [|a b x s data Hx Ha Hb Hp (IH1 & IH2 & IH3 & _)].
  - repeat split; [constructor|discriminate].
  - destruct (hex_digit_char _ _ Ha) as (A1 & A2 & _), (hex_digit_char _ _ Hb) as (B1 & B2 & B3).
    split; [cbn; lia|]. split; [cbn [forallb]; rewrite A1, B1; exact IH2|]. split; [constructor; [lia|constructor; [lia|exact IH3]]|exact B3].
Qed.
Lemma no_prefix t : nth 1 t 0 <> 120 -> bytes_eqb (firstn 2 t) (chars "0x") = false.
Proof.
  intros N. destruct (bytes_eqb _ _) eqn:E; [|reflexivity]. apply bytes_eqb_spec in E. exfalso. apply N. destruct t as [|a [|b t]]; try discriminate. injection E as _ ->. reflexivity.
Qed.
Lemma hex_pairs_valid t d : hex_pairs t d -> IsValidHex t = true /\ FromHex t = Ret d /\ nlen t = 2 * nlen d.
Proof.
  intros H. destruct (hex_pairs_facts _ _ H) as (L & V & B & N1). split.
  - unfold IsValidHex. rewrite (no_prefix _ N1), Bool.andb_false_r. exact V.
  - split; [|unfold nlen; lia]. apply (TextProps.C41_hex_exact t B). exists [], [], t, []. rewrite app_nil_r. repeat split; try constructor; auto.
Qed.
Lemma hex_prefixed t d : hex_pairs t d -> d <> [] -> IsValidHex (chars "0x" ++ t) = true /\ FromHex (chars "0x" ++ t) = Ret d.
Proof.
  intros H Ne. destruct (hex_pairs_facts _ _ H) as (L & V & B & N1). split.
  - unfold IsValidHex. change (firstn 2 (chars "0x" ++ t)) with (chars "0x"). rewrite bytes_eqb_refl. change (skipn 2 (chars "0x" ++ t)) with t.
    assert (Q : (2 <? nlen (chars "0x" ++ t)) = true).
    { apply N.ltb_lt. unfold nlen. rewrite app_length, L. destruct d; [contradiction|]. cbn [length chars map list_ascii_of_string]. lia. }
    rewrite Q. exact V.
  - apply (TextProps.C41_hex_exact _). { apply Forall_app. split; [repeat constructor|exact B]. }
    exists [], (chars "0x"), t, []. rewrite app_nil_r. split; [reflexivity|]. split; [constructor|]. split; [constructor|]. split; [right; left; reflexivity|exact H].
Qed.

(** * Numbers *)
Lemma decimal_chars n s : decimal n s -> exists ds, s = dec_chars ds /\ digits 10 ds /\ radix 10 ds = n /\ canonical ds.
Proof.
  intros (ds & F & R & C). exists ds. split; [|split; [|split; [exact R|exact C]]]; clear R C; induction F as [|c d s ds H F IH]; try reflexivity; try (constructor; fail).
  - cbn [dec_chars map]. f_equal; [|exact IH]. assert (L : (N.to_nat d < length (text "0123456789"))%nat) by (apply nth_error_Some; unfold digit_in in H; rewrite H; discriminate). change (length (text "0123456789")) with 10%nat in L.
    assert (Q : d = 0 \/ d = 1 \/ d = 2 \/ d = 3 \/ d = 4 \/ d = 5 \/ d = 6 \/ d = 7 \/ d = 8 \/ d = 9) by lia.
    repeat destruct Q as [->|Q]; try (injection H as <-; reflexivity). subst. injection H as <-. reflexivity.
  - constructor; [|exact IH]. assert (L : (N.to_nat d < length (text "0123456789"))%nat) by (apply nth_error_Some; unfold digit_in in H; rewrite H; discriminate). cbn in L. lia.
Qed.
Lemma digit_value_dec d : d < 10 -> digit_value (48 + d) = Some d.
Proof. intros H. unfold digit_value. replace ((48 <=? 48 + d) && (48 + d <=? 57)) with true by (symmetry; apply andb_true_intro; split; apply N.leb_le; lia). f_equal. lia. Qed.
Lemma run_dec ds rest : digits 10 ds -> (match rest with [] => True | c :: _ => is_digit_of 10 c = false end) ->
  forall v, run_of 10 (dec_chars ds ++ rest) v = v * 10 ^ N.of_nat (length ds) + radix 10 ds.
Proof.
  intros D Hr. induction D as [|d ds Hd D IH]; intros v.
  - cbn [dec_chars map app length]. change (radix 10 []) with 0. rewrite N.pow_0_r, N.mul_1_r, N.add_0_r. destruct rest as [|c rest]; [reflexivity|].
    cbn [run_of]. unfold is_digit_of in Hr. destruct (digit_value c) as [x|]; [rewrite Hr|]; reflexivity.
  - cbn [dec_chars map app run_of]. fold (dec_chars ds). rewrite (digit_value_dec _ Hd). assert (Q : (d <? 10) = true) by (apply N.ltb_lt; exact Hd). rewrite Q, IH.
    cbn [length]. rewrite Nat2N.inj_succ, N.pow_succ_r, radix_cons by lia. remember (10 ^ N.of_nat (length ds)) as P. ring.
Qed.
(** A run of digits is read, whatever follows it; in base 0 if it does not start with a zero. *)
Lemma stoull_dec base0 ds rest : digits 10 ds -> ds <> [] -> (base0 = true -> no_leading_zero ds) ->
  (match rest with [] => True | c :: _ => is_digit_of 10 c = false end) ->
  stoull base0 (dec_chars ds ++ rest) = if radix 10 ds <? 2 ^ 64 then Number (radix 10 ds) else OutOfRange.
Proof.
  intros D Ne NZ Hr. destruct ds as [|d ds]; [contradiction|]. inversion D as [|? ? Hd D']; subst.
  unfold stoull. cbn [dec_chars map app skip_spaces]. fold (dec_chars ds).
  assert (S1 : IsSpace (48 + d) = false) by (unfold IsSpace; lia). rewrite S1.
  assert (S2 : (48 + d =? 45) = false) by lia. assert (S3 : (48 + d =? 43) = false) by lia. rewrite S2, S3.
  assert (DT : (if base0 then detect ((48 + d) :: dec_chars ds ++ rest) else (10, (48 + d) :: dec_chars ds ++ rest)) = (10, (48 + d) :: dec_chars ds ++ rest)).
  { destruct base0; [|reflexivity]. specialize (NZ eq_refl). cbn in NZ. unfold detect. destruct (48 + d) as [|q] eqn:Q; [lia|].
    assert (Z : N.pos q <> 48) by lia. clear - Z. do 6 (destruct q as [q|q|]; try reflexivity). exfalso. apply Z. reflexivity. }
  rewrite DT. cbv beta iota. unfold is_digit_of. rewrite (digit_value_dec _ Hd). assert (Q : (d <? 10) = true) by (apply N.ltb_lt; exact Hd). rewrite Q.
  change ((48 + d) :: dec_chars ds ++ rest) with (dec_chars (d :: ds) ++ rest). rewrite (run_dec _ _ D Hr 0), N.mul_0_l, N.add_0_l. reflexivity.
Qed.
Lemma stoull_decimal base0 n s : decimal n s -> n < 2 ^ 64 -> stoull base0 s = Number n.
Proof.
  intros H L. destruct (decimal_chars _ _ H) as (ds & -> & D & R & C). destruct C as [->|[Ne NZ]].
  - cbn in R. subst n. destruct base0; reflexivity.
  - rewrite <- (app_nil_r (dec_chars ds)), stoull_dec; auto. rewrite R. apply N.ltb_lt in L. rewrite L. reflexivity.
Qed.
Lemma radix_lower b ds : 0 < b -> no_leading_zero ds -> ds <> [] -> b ^ N.of_nat (length ds - 1) <= radix b ds.
Proof. intros Hb NZ Ne. destruct ds as [|d ds]; [contradiction|]. cbn in NZ. rewrite radix_cons. cbn [length]. replace (S (length ds) - 1)%nat with (length ds) by lia. nia. Qed.
Lemma decimal_short n s : decimal n s -> n < 2 ^ 64 -> (length s <= 20)%nat.
Proof.
  intros H L. destruct (decimal_chars _ _ H) as (ds & -> & D & R & C). unfold dec_chars. rewrite map_length. destruct C as [->|[Ne NZ]]; [cbn; lia|].
  destruct (le_lt_dec (length ds) 20) as [|G]; [assumption|exfalso]. pose proof (radix_lower 10 ds eq_refl NZ Ne) as B. rewrite R in B.
  assert (P : 10 ^ 20 <= 10 ^ N.of_nat (length ds - 1)) by (apply N.pow_le_mono_r; lia). assert (10 ^ 20 <= 2 ^ 64) by lia. 
  assert (Z : (10 ^ 20 <=? 2 ^ 64) = false) by reflexivity. apply N.leb_gt in Z. lia.
Qed.

(** * Looking up *)
Lemma lookup_hash {A} (f g : bytes -> option A) h t d : hex_pairs t d -> length d = 32%nat -> lookup f g h t = f d.
Proof.
  intros H L. destruct (hex_pairs_valid _ _ H) as (V & F & N1). unfold lookup, BigInteger_FromHex. rewrite N1, V, F. cbn [obind]. unfold nlen. rewrite L. reflexivity.
Qed.
Lemma lookup_commitment {A} (f g : bytes -> option A) h t d : hex_pairs t d -> length d = 33%nat -> lookup f g h t = g d.
Proof.
  intros H L. destruct (hex_pairs_valid _ _ H) as (V & F & N1). unfold lookup, BigInteger_FromHex. rewrite N1, V, F. cbn [obind]. unfold nlen. rewrite L. reflexivity.
Qed.
Lemma lookup_prefixed {A} (f g : bytes -> option A) h t d : hex_pairs t d -> length d = 32%nat -> lookup f g h (chars "0x" ++ t) = None.
Proof.
  intros H L. destruct (hex_prefixed t d H) as (V & F); [intros ->; discriminate|]. destruct (hex_pairs_facts _ _ H) as (L2 & _).
  unfold lookup, BigInteger_FromHex. rewrite V, F. cbn [obind]. unfold nlen. rewrite app_length, L2, L. reflexivity.
Qed.
Lemma lookup_number {A} (f g : bytes -> option A) h t n : nlen t <> 64 -> nlen t <> 66 -> stoull true t = Number n -> lookup f g h t = h n.
Proof. intros A1 A2 E. unfold lookup. apply N.eqb_neq in A1. apply N.eqb_neq in A2. rewrite A1, A2, E. reflexivity. Qed.
Lemma lookup_height {A} (f g : bytes -> option A) h t n : decimal n t -> n < 2 ^ 64 -> lookup f g h t = h n.
Proof. intros D L. pose proof (decimal_short _ _ D L). apply lookup_number; [unfold nlen; lia|unfold nlen; lia|]. apply stoull_decimal; assumption. Qed.
Lemma by_height {A} chain (table : bytes -> option A) n : at_height chain table n (match GetByHeight chain n with Some h => table h | None => None end).
Proof.
  unfold GetByHeight. destruct (N.ltb_spec n (nlen chain)) as [L|L]; unfold nlen in L.
  - destruct (nth_error chain (N.to_nat n)) as [h|] eqn:E; [left; exists h; split; [exact E|reflexivity]|]. apply nth_error_None in E. lia.
  - right. split; [lia|reflexivity].
Qed.

(** * Ranges *)
Section RANGES.
Context {Block Header : Type}.
Variable block_hash : Block -> bytes.
Variable block_outputs : Block -> list bytes.
Notation with_outputs := (@GetBlockWithOutputs Block Header block_hash block_outputs).
Lemma in_outputs (s : Store Block Header) c x os : In (c, x) (flat_map (fun c => match s_position s c with Some l => [(c, l)] | None => [] end) os) <-> In c os /\ s_position s c = Some x.
Proof.
  rewrite in_flat_map. split.
  - intros (c' & I & Q). destruct (s_position s c') as [l|] eqn:E; [|contradiction]. destruct Q as [[= -> ->]|[]]. split; assumption.
  - intros (I & E). exists c. split; [exact I|]. rewrite E. left. reflexivity.
Qed.
Lemma heights_length (s : Store Block Header) t : forall h, (forall k, (k < t)%nat -> with_outputs s (h + N.of_nat k) <> None) -> length (heights_from block_hash block_outputs s t h) = t.
Proof.
  induction t as [|t IH]; intros h A; [reflexivity|]. cbn [heights_from]. rewrite app_length, IH.
  - specialize (A 0%nat ltac:(lia)). rewrite N.add_0_r in A. destruct (with_outputs s h); [reflexivity|contradiction].
  - intros k L. specialize (A (S k) ltac:(lia)). replace (h + 1 + N.of_nat k) with (h + N.of_nat (S k)) by lia. exact A.
Qed.
Lemma heights_nth (s : Store Block Header) t : forall h k, (forall k, (k < t)%nat -> with_outputs s (h + N.of_nat k) <> None) -> (k < t)%nat ->
  nth_error (heights_from block_hash block_outputs s t h) k = with_outputs s (h + N.of_nat k).
Proof.
  induction t as [|t IH]; intros h k A L; [lia|]. cbn [heights_from]. pose proof (A 0%nat ltac:(lia)) as A0. rewrite N.add_0_r in A0. destruct (with_outputs s h) as [w|] eqn:E; [|contradiction].
  destruct k as [|k]; [rewrite N.add_0_r, E; reflexivity|]. cbn [app nth_error]. rewrite IH; [f_equal; lia| |lia].
  intros k' L'. specialize (A (S k') ltac:(lia)). replace (h + 1 + N.of_nat k') with (h + N.of_nat (S k')) by lia. exact A.
Qed.
End RANGES.

(** * Query strings *)
Lemma split_until d x : ~ In d x -> forall y tok, split_from d (x ++ d :: y) tok = match rev x ++ tok with [] => split_from d y [] | t => rev t :: split_from d y [] end.
Proof.
  induction x as [|c x IH]; intros N y tok.
  - cbn. rewrite N.eqb_refl. destruct tok; reflexivity.
  - cbn [app split_from]. assert (Q : (c =? d) = false) by (apply N.eqb_neq; intros ->; apply N; left; reflexivity). rewrite Q, IH by (intros I; apply N; right; exact I).
    cbn [rev]. rewrite <- app_assoc. reflexivity.
Qed.
Lemma split_last d x : ~ In d x -> forall tok, split_from d x tok = match rev x ++ tok with [] => [] | t => [rev t] end.
Proof.
  induction x as [|c x IH]; intros N tok.
  - cbn. destruct tok; reflexivity.
  - cbn [split_from]. assert (Q : (c =? d) = false) by (apply N.eqb_neq; intros ->; apply N; left; reflexivity). rewrite Q, IH by (intros I; apply N; right; exact I).
    cbn [rev]. rewrite <- app_assoc. reflexivity.
Qed.
Lemma rev_cases {A} (x : list A) (B : Type) (u : B) (v : list A -> B) : x <> [] -> match rev x ++ [] with [] => u | t => v (rev t) end = v x.
Proof. intros Ne. rewrite app_nil_r. destruct (rev x) eqn:E; [exfalso; apply Ne; rewrite <- (rev_involutive x), E; reflexivity|]. rewrite <- E, rev_involutive. reflexivity. Qed.
Lemma split_two d x y : ~ In d x -> ~ In d y -> x <> [] -> y <> [] -> Split (x ++ d :: y) d = [x; y].
Proof.
  intros X Y Nx Ny. unfold Split. rewrite split_until by exact X.
  pose proof (rev_cases x (list bytes) (split_from d y []) (fun t => t :: split_from d y []) Nx) as E. cbv beta in E.
  destruct (rev x ++ []) as [|a l] eqn:R; [rewrite app_nil_r in R; exfalso; apply Nx; rewrite <- (rev_involutive x), R; reflexivity|]. rewrite E. f_equal.
  rewrite split_last by exact Y. pose proof (rev_cases y (list bytes) [] (fun t => [t]) Ny) as E2. cbv beta in E2.
  destruct (rev y ++ []) eqn:R2; [rewrite app_nil_r in R2; exfalso; apply Ny; rewrite <- (rev_involutive y), R2; reflexivity|]. exact E2.
Qed.
Lemma dec_chars_in c ds : digits 10 ds -> In c (dec_chars ds) -> 48 <= c <= 57.
Proof. intros D I. apply in_map_iff in I as (d & <- & I). pose proof (proj1 (Forall_forall _ _) D d I) as Q. cbv beta in Q. lia. Qed.
Lemma decimal_in n s c : decimal n s -> In c s -> 48 <= c <= 57.
Proof. intros H I. destruct (decimal_chars _ _ H) as (ds & -> & D & _). exact (dec_chars_in _ _ D I). Qed.
Lemma decimal_nonempty n s : decimal n s -> s <> [].
Proof. intros H E. destruct (decimal_chars _ _ H) as (ds & -> & _ & _ & [->|[Ne _]]); [discriminate|]. destruct ds; [contradiction|discriminate]. Qed.
Lemma query_parameters q a b : range_query q a b -> a < 2 ^ 64 -> b < 2 ^ 64 ->
  parameter (chars "start_height") (Split q 38) 0 = Value a /\ parameter (chars "end_height") (Split q 38) 0 = Value b.
Proof.
  intros (ta & tb & A & B & ->) La Lb.
  assert (E : Split (text "start_height=" ++ ta ++ text "&end_height=" ++ tb) 38 = [text "start_height=" ++ ta; text "end_height=" ++ tb]).
  { change (text "&end_height=" ++ tb) with (38 :: (text "end_height=" ++ tb)). rewrite app_assoc. apply split_two; try (intros E; discriminate).
    - intros I. apply in_app_or in I as [I|I]; [cbv in I; repeat destruct I as [I|I]; try discriminate; contradiction|]. pose proof (decimal_in _ _ _ A I). lia.
    - intros I. apply in_app_or in I as [I|I]; [cbv in I; repeat destruct I as [I|I]; try discriminate; contradiction|]. pose proof (decimal_in _ _ _ B I). lia. }
  rewrite E. clear E.
  assert (SA : Split (text "start_height=" ++ ta) 61 = [text "start_height"; ta]).
  { change (text "start_height=" ++ ta) with (text "start_height" ++ 61 :: ta). apply split_two; try (intros E; discriminate).
    - intros I. cbv in I. repeat destruct I as [I|I]; try discriminate; contradiction.
    - intros I. pose proof (decimal_in _ _ _ A I). lia.
    - exact (decimal_nonempty _ _ A). }
  assert (SB : Split (text "end_height=" ++ tb) 61 = [text "end_height"; tb]).
  { change (text "end_height=" ++ tb) with (text "end_height" ++ 61 :: tb). apply split_two; try (intros E; discriminate).
    - intros I. cbv in I. repeat destruct I as [I|I]; try discriminate; contradiction.
    - intros I. pose proof (decimal_in _ _ _ B I). lia.
    - exact (decimal_nonempty _ _ B). }
  assert (P1 : StartsWith (text "start_height=" ++ ta) (chars "start_height" ++ [61]) = true).
  { unfold StartsWith. assert (Q : (nlen (text "start_height=" ++ ta) <? nlen (chars "start_height" ++ [61])) = false) by (apply N.ltb_ge; unfold nlen; rewrite app_length; cbn; lia). rewrite Q. reflexivity. }
  assert (P2 : StartsWith (text "end_height=" ++ tb) (chars "end_height" ++ [61]) = true).
  { unfold StartsWith. assert (Q : (nlen (text "end_height=" ++ tb) <? nlen (chars "end_height" ++ [61])) = false) by (apply N.ltb_ge; unfold nlen; rewrite app_length; cbn; lia). rewrite Q. reflexivity. }
  assert (P3 : StartsWith (text "end_height=" ++ tb) (chars "start_height" ++ [61]) = false).
  { unfold StartsWith. destruct (_ <? _); [reflexivity|]. cbn. reflexivity. }
  assert (P4 : StartsWith (text "start_height=" ++ ta) (chars "end_height" ++ [61]) = false).
  { unfold StartsWith. destruct (_ <? _); [reflexivity|]. cbn. reflexivity. }
  cbn [parameter]. rewrite P1, P2, P3, P4, SA, SB, (stoull_decimal false _ _ A La), (stoull_decimal false _ _ B Lb). split; reflexivity.
Qed.

(** * JSON-RPC *)
Lemma get_field fields k v : field fields k v -> get fields k = v.
Proof.
  intros [(b & a & -> & N1)|[-> N1]].
  - induction b as [|[k' v'] b IH]; [cbn; rewrite bytes_eqb_refl; reflexivity|]. cbn. destruct (bytes_eqb k' k) eqn:E.
    + apply bytes_eqb_spec in E. subst. exfalso. apply N1. left. reflexivity.
    + apply IH. intros I. apply N1. right. exact I.
  - induction fields as [|[k' v'] f IH]; [reflexivity|]. cbn. destruct (bytes_eqb k' k) eqn:E.
    + apply bytes_eqb_spec in E. subst. exfalso. apply N1. left. reflexivity.
    + apply IH. intros I. apply N1. right. exact I.
Qed.
Lemma field_get fields k : field fields k (get fields k).
Proof.
  induction fields as [|[k' v'] f IH]; [right; split; [reflexivity|intros []]|]. cbn. destruct (bytes_eqb k' k) eqn:E.
  - apply bytes_eqb_spec in E. subst. left. exists [], f. split; [reflexivity|intros []].
  - assert (Ne : k' <> k) by (intros ->; rewrite bytes_eqb_refl in E; discriminate). destruct IH as [(b & a & F & N1)|[Z N1]].
    + left. exists ((k', v') :: b), a. split; [cbn [app]; f_equal; exact F|]. intros [I|I]; [apply Ne; exact I|apply N1; exact I].
    + right. split; [exact Z|]. intros [I|I]; [apply Ne; exact I|apply N1; exact I].
Qed.
Lemma parse_request j r : is_request j r -> Request_Parse (Json j) = GoodRequest r.
Proof.
  intros (f & -> & V & I & In & M & Mn & p & P & Pe). apply get_field in V, I, M, P. unfold Request_Parse, GetOptionalField. change chars with text. rewrite V, I, M, P.
  cbn [isNull]. destruct r as [id m ps]. cbn in *. destruct id; try contradiction; cbn; (destruct m; [contradiction|]); subst ps; destruct p; reflexivity.
Qed.
Lemma parsed_request b r : Request_Parse b = GoodRequest r -> exists j, b = Json j /\ is_request j r.
Proof.
  destruct b as [| | |j]; try discriminate. intros E. exists j. split; [reflexivity|]. unfold Request_Parse in E.
  destruct j as [| | | | |f]; try discriminate. unfold GetOptionalField in E. change chars with text in E.
  destruct (isNull (get f (text "id"))) eqn:I; [discriminate|]. destruct (isNull (get f (text "jsonrpc"))) eqn:V; [discriminate|].
  destruct (get f (text "jsonrpc")) as [| | |v| |] eqn:GV; try discriminate. destruct (bytes_eqb v (text "2.0")) eqn:EV; cbn [negb] in E; [|discriminate]. apply bytes_eqb_spec in EV. subst v.
  destruct (isNull (get f (text "method"))) eqn:M; [discriminate|]. destruct (get f (text "method")) as [| | |m| |] eqn:GM; try discriminate. destruct m as [|c m]; [discriminate|].
  injection E as <-. exists f. split; [reflexivity|]. cbn [q_id q_method q_params]. split; [rewrite <- GV; apply field_get|]. split; [apply field_get|].
  split; [destruct (get f (text "id")); discriminate|]. split; [rewrite <- GM; apply field_get|]. split; [discriminate|].
  exists (get f (text "params")). split; [apply field_get|]. destruct (get f (text "params")); reflexivity.
Qed.
