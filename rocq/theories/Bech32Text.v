(** Proofs for C52: which texts are read, and which errors are detected. *)
From Coq Require Import FMapPositive.
From Verif Require Import Base Bytes FileModel SerialModel TextModel Bech32Model Bech32Spec Bech32Poly Bech32Proofs.
Local Open Scope N_scope.

Lemma below (p : N -> bool) k : forallb p (map N.of_nat (seq 0 k)) = true -> forall v, v < N.of_nat k -> p v = true.
Proof.
  intros H v Hv. rewrite forallb_forall in H. apply H. apply in_map_iff. exists (N.to_nat v). split; [lia|]. apply in_seq. lia.
Qed.
Definition enc (v : N) : N := nth (N.to_nat v) CHARSET 0.
Definition rev_is (c v : N) : bool := match nth_error CHARSET_REV (N.to_nat c) with Some (Some r) => r =? v | _ => false end.
Definition check_enc (v : N) : bool :=
  (33 <=? enc v) && (enc v <=? 126) && negb (enc v =? 49) && (LowerCase (enc v) =? enc v) && rev_is (enc v) v &&
  match nth_error (CHARSET ++ [0]) (N.to_nat v) with Some c => c =? enc v | None => false end.
Lemma enc_ok v : v < 32 -> 33 <= enc v <= 126 /\ enc v <> 49 /\ LowerCase (enc v) = enc v /\
  nth_error CHARSET_REV (N.to_nat (enc v)) = Some (Some v) /\ nth_error (CHARSET ++ [0]) (N.to_nat v) = Some (enc v).
Proof.
  intros H. pose proof (below check_enc 32 eq_refl v H) as C. unfold check_enc, rev_is in C.
  repeat (apply andb_true_iff in C; destruct C as [C ?H]).
  destruct (nth_error CHARSET_REV _) as [[r|]|]; try discriminate. destruct (nth_error (CHARSET ++ [0]) _) as [c|]; try discriminate.
  repeat split; try lia; [f_equal; f_equal; lia|f_equal; lia].
Qed.
Definition check_rev (c : N) : bool :=
  match nth_error CHARSET_REV (N.to_nat c), nth_error CHARSET_REV (N.to_nat (LowerCase c)) with
  | Some (Some v), Some (Some v') => (v =? v') && (v <? 32) && (enc v =? LowerCase c)
  | Some None, Some None => true
  | _, _ => false
  end.
Lemma rev_ok c : c < 128 ->
  (exists v, v < 32 /\ enc v = LowerCase c /\ nth_error CHARSET_REV (N.to_nat c) = Some (Some v)) \/
  (nth_error CHARSET_REV (N.to_nat c) = Some None /\ forall v, v < 32 -> enc v <> LowerCase c).
Proof.
  intros H. pose proof (below check_rev 128 eq_refl c H) as C. unfold check_rev in C.
  destruct (nth_error CHARSET_REV (N.to_nat c)) as [[v|]|]; try discriminate.
  - destruct (nth_error CHARSET_REV (N.to_nat (LowerCase c))) as [[v'|]|]; try discriminate. left. exists v.
    repeat (apply andb_true_iff in C; destruct C as [C ?H]). repeat split; try lia.
  - destruct (nth_error CHARSET_REV (N.to_nat (LowerCase c))) as [[v'|]|] eqn:E; try discriminate. right. split; [reflexivity|].
    intros v Hv F. destruct (enc_ok v Hv) as (_ & _ & _ & R & _). rewrite F in R. congruence.
Qed.

Lemma enc_inj v v' : v < 32 -> v' < 32 -> enc v = enc v' -> v = v'.
Proof. intros H H' E. destruct (enc_ok v H) as (_ & _ & _ & R & _), (enc_ok v' H') as (_ & _ & _ & R' & _). rewrite E in R. congruence. Qed.
Lemma map_enc_inj : forall l l', Forall five l -> Forall five l' -> map enc l = map enc l' -> l = l'.
Proof.
  induction l as [|v l IH]; intros [|v' l'] H H' E; try discriminate; [reflexivity|]. inversion H; inversion H'; subst. cbn in E.
  injection E as E1 E2. f_equal; [apply enc_inj; assumption|apply IH; assumption].
Qed.
Lemma encode_chars_map l : Forall five l -> encode_chars l = Ret (map enc l).
Proof.
  induction l as [|v l IH]; intros H; [reflexivity|]. inversion H; subst. cbn [encode_chars map].
  destruct (enc_ok v) as (_ & _ & _ & _ & ->); [assumption|]. cbn [obind]. rewrite IH by assumption. reflexivity.
Qed.
Lemma lower_map t : lower t = map LowerCase t.
Proof. unfold lower, LowerCase. apply map_ext. intros c. destruct ((65 <=? c) && (c <=? 90)) eqn:E; [lia|reflexivity]. Qed.
Lemma decode_chars_spec t : Forall (fun c => c < 128) t ->
  (exists vals, decode_chars t = Ret (Some vals) /\ Forall five vals /\ map LowerCase t = map enc vals) \/
  (decode_chars t = Ret None /\ forall vals, Forall five vals -> map LowerCase t <> map enc vals).
Proof.
  induction t as [|c t IH]; intros H; cbn [decode_chars map].
  - left. exists []. repeat split. constructor.
  - inversion H; subst. destruct (rev_ok c H2) as [(v & V1 & V2 & ->)|[-> Hn]].
    + destruct (IH H3) as [(vals & -> & F & E)|[-> Hn]].
      * left. exists (v :: vals). cbn [obind option_map map]. repeat split; [constructor; assumption|]. rewrite E, V2. reflexivity.
      * right. split; [reflexivity|]. intros [|x vals] F E; [discriminate|]. inversion F; subst. cbn in E. injection E as _ E. eapply Hn; eauto.
    + right. split; [reflexivity|]. intros [|x vals] F E; [discriminate|]. inversion F; subst. cbn in E. injection E as E _. eapply Hn; eauto.
Qed.

(** ** The separator *)
Lemma rfind_some ch t p : rfind ch t = Some p -> exists a b, t = a ++ ch :: b /\ ~ In ch b /\ nlen a = p.
Proof.
  revert p. induction t as [|c t IH]; intros p E; [discriminate|]. cbn [rfind] in E. destruct (rfind ch t) as [q|] eqn:R.
  - injection E as <-. destruct (IH q eq_refl) as (a & b & -> & H & L). exists (c :: a), b. split; [reflexivity|]. split; [exact H|].
    unfold nlen in *. cbn [length]. lia.
  - destruct (c =? ch) eqn:C; [|discriminate]. injection E as <-. apply N.eqb_eq in C. subst c. exists [], t. split; [reflexivity|]. split; [|reflexivity].
    clear IH. intros Hi. revert R. induction t as [|x t IHt]; [contradiction|]. cbn [rfind]. destruct (rfind ch t); [discriminate|].
    destruct (x =? ch) eqn:X; [discriminate|]. intros _. destruct Hi as [->|Hi]; [rewrite N.eqb_refl in X; discriminate|]. apply IHt; auto.
Qed.
Lemma rfind_last ch a b : ~ In ch b -> rfind ch (a ++ ch :: b) = Some (nlen a).
Proof.
  intros H. assert (Z : rfind ch b = None).
  { induction b as [|x b IH]; [reflexivity|]. cbn [rfind]. rewrite IH by (intros Hi; apply H; right; exact Hi).
    destruct (x =? ch) eqn:X; [|reflexivity]. apply N.eqb_eq in X. subst. exfalso. apply H. left. reflexivity. }
  induction a as [|c a IH]; cbn [app rfind]; [rewrite Z, N.eqb_refl; reflexivity|]. rewrite IH. unfold nlen. cbn [length]. f_equal. lia.
Qed.

(** ** Case *)
Definition is_lower (c : N) : bool := (97 <=? c) && (c <=? 122).
Definition is_upper (c : N) : bool := (65 <=? c) && (c <=? 90).
Lemma scan_spec t : forall l u, scan_case t l u =
  if forallb (fun c => (33 <=? c) && (c <=? 126)) t then Some (l || existsb is_lower t, u || existsb is_upper t)%bool else None.
Proof.
  induction t as [|c t IH]; intros l u; cbn [scan_case forallb existsb]; [rewrite !orb_false_r; reflexivity|].
  rewrite !IH. change (is_lower c) with ((97 <=? c) && (c <=? 122)). change (is_upper c) with ((65 <=? c) && (c <=? 90)). destruct ((97 <=? c) && (c <=? 122)) eqn:L.
  { replace ((33 <=? c) && (c <=? 126)) with true by lia. replace ((65 <=? c) && (c <=? 90)) with false by lia. cbn [andb orb]. rewrite ?orb_true_r. destruct l, u; reflexivity. }
  destruct ((65 <=? c) && (c <=? 90)) eqn:U.
  { replace ((33 <=? c) && (c <=? 126)) with true by lia. cbn [andb orb]. rewrite ?orb_true_r. destruct l, u; reflexivity. }
  destruct ((c <? 33) || (126 <? c)) eqn:X.
  - replace ((33 <=? c) && (c <=? 126)) with false by lia. reflexivity.
  - replace ((33 <=? c) && (c <=? 126)) with true by lia. cbn [andb orb]. reflexivity.
Qed.
Lemma lower_fix t : t = lower t <-> existsb is_upper t = false.
Proof.
  induction t as [|c t IH]; [split; reflexivity|]. cbn [existsb lower map]. change (is_upper c) with ((65 <=? c) && (c <=? 90)). fold (lower t).
  destruct ((65 <=? c) && (c <=? 90)) eqn:U; cbn [orb]; split; intros E; try discriminate.
  - injection E as E _. lia.
  - injection E as E. apply IH. exact E.
  - f_equal. apply IH. exact E.
Qed.
Lemma upper_fix t : t = upper t <-> existsb is_lower t = false.
Proof.
  induction t as [|c t IH]; [split; reflexivity|]. cbn [existsb upper map]. change (is_lower c) with ((97 <=? c) && (c <=? 122)). fold (upper t).
  destruct ((97 <=? c) && (c <=? 122)) eqn:U; cbn [orb]; split; intros E; try discriminate.
  - injection E as E _. lia.
  - injection E as E. apply IH. exact E.
  - f_equal. apply IH. exact E.
Qed.
Lemma scan_ok t : (printable t /\ one_case t /\ exists l u, scan_case t false false = Some (l, u) /\ (l && u)%bool = false) \/
  (~ (printable t /\ one_case t) /\ (scan_case t false false = None \/ exists l u, scan_case t false false = Some (l, u) /\ (l && u)%bool = true)).
Proof.
  rewrite scan_spec. destruct (forallb _ t) eqn:P.
  - assert (Hp : printable t). { apply Forall_forall. intros c Hc. rewrite forallb_forall in P. specialize (P c Hc). lia. }
    cbn [orb]. destruct (existsb is_lower t && existsb is_upper t)%bool eqn:B.
    + right. split; [|right; do 2 eexists; split; [reflexivity|exact B]]. intros [_ [H|H]].
      * apply lower_fix in H. rewrite H, andb_false_r in B. discriminate.
      * apply upper_fix in H. rewrite H in B. discriminate.
    + left. split; [exact Hp|]. split; [|do 2 eexists; split; [reflexivity|exact B]].
      apply andb_false_iff in B. destruct B as [B|B]; [right; apply upper_fix; exact B|left; apply lower_fix; exact B].
  - right. split; [|left; reflexivity]. intros [H _]. unfold printable in H. rewrite Forall_forall in H.
    assert (forallb (fun c => (33 <=? c) && (c <=? 126)) t = true); [|congruence]. apply forallb_forall. intros c Hc. specialize (H c Hc). cbn beta in H. lia.
Qed.
Lemma lower_range c : 33 <= c <= 126 -> 33 <= LowerCase c <= 126.
Proof. unfold LowerCase. destruct ((65 <=? c) && (c <=? 90)) eqn:E; lia. Qed.
Lemma lower_sep c : LowerCase c = 49 <-> c = 49.
Proof. unfold LowerCase. destruct ((65 <=? c) && (c <=? 90)) eqn:E; lia. Qed.

(** ** Decode *)
Record decoded (t hrp : bytes) (vals : list N) : Prop := mkDecoded {
  d_printable : printable t; d_case : one_case t; d_len : nlen t <= 90;
  d_text : exists p d, t = p ++ 49 :: d /\ ~ In 49 d /\ hrp = map LowerCase p /\ hrp <> [] /\
    map LowerCase d = map enc (vals ++ CreateChecksum hrp vals);
  d_five : Forall five vals }.
Lemma printable_bytes t : printable t -> is_bytes (map LowerCase t).
Proof. intros H. apply Forall_map. eapply Forall_impl; [|exact H]. intros c Hc. cbn beta in *. pose proof (lower_range c Hc). lia. Qed.
Lemma Decode_cases t : (exists hrp vals, Decode t = Ret (hrp, vals) /\ decoded t hrp vals) \/
  (Decode t = Ret ([], []) /\ forall hrp vals, ~ decoded t hrp vals).
Proof.
  unfold Decode. destruct (scan_ok t) as [(Hp & Hc & l & u & -> & B)|(Hn & Hs)].
  2:{ right. split; [|intros hrp vals D; apply Hn; split; apply D]. destruct Hs as [->|(l & u & -> & ->)]; reflexivity. }
  rewrite B. destruct (rfind 49 t) as [pos|] eqn:R.
  2:{ right. split; [reflexivity|]. intros hrp vals [_ _ _ (p & d & -> & Hd & _) _]. rewrite rfind_last in R by exact Hd. discriminate. }
  apply rfind_some in R. destruct R as (p & d & Et & Hd & Lp).
  assert (Ln : nlen t = pos + 1 + nlen d). { rewrite Et. unfold nlen in *. rewrite app_length. cbn [length]. lia. }
  assert (U : forall hrp vals, decoded t hrp vals -> nlen t <= 90 /\ pos <> 0 /\ nlen d = nlen vals + 6 /\ hrp = map LowerCase p /\
    Forall five vals /\ map LowerCase d = map enc (vals ++ CreateChecksum hrp vals)).
  { intros hrp vals [_ _ D3 (p' & d' & E' & Hd' & Eh & Hh & Em) D5].
    assert (Q : nlen p = nlen p'). { pose proof (rfind_last 49 p d Hd) as R1. pose proof (rfind_last 49 p' d' Hd') as R2. rewrite <- Et in R1. rewrite <- E' in R2. congruence. }
    rewrite E' in Et. unfold nlen in Q. destruct (app_inv_length p' (49 :: d') p (49 :: d) ltac:(lia) Et) as [-> Ed]. injection Ed as ->.
    split; [exact D3|]. split. { destruct p; [subst hrp; contradiction Hh; reflexivity|]. unfold nlen in Lp. cbn [length] in Lp. lia. }
    split; [|auto]. apply (f_equal (@length N)) in Em. rewrite !map_length, app_length, checksum_length in Em. unfold nlen. lia. }
  destruct ((90 <? nlen t) || (pos =? 0) || (nlen t <? pos + 7)) eqn:G.
  { right. split; [reflexivity|]. intros hrp vals D. destruct (U _ _ D) as (U1 & U2 & U3 & _). lia. }
  replace (firstn (N.to_nat pos) t) with p.
  2:{ rewrite Et. replace (N.to_nat pos) with (length p) by (unfold nlen in Lp; lia). rewrite firstn_app, Nat.sub_diag, firstn_all. cbn. rewrite app_nil_r. reflexivity. }
  replace (skipn (N.to_nat (pos + 1)) t) with d.
  2:{ rewrite Et. replace (N.to_nat (pos + 1)) with (length (p ++ [49])) by (rewrite app_length; cbn; unfold nlen in Lp; lia).
      change (49 :: d) with ([49] ++ d). rewrite app_assoc, skipn_app, Nat.sub_diag, skipn_all. reflexivity. }
  assert (Hpd : printable p /\ printable d).
  { unfold printable in *. rewrite Et in Hp. apply Forall_app in Hp. destruct Hp as [Hp1 Hp2]. inversion Hp2; auto. }
  destruct Hpd as [Hpp Hpd].
  destruct (decode_chars_spec d) as [(all & -> & Fa & Ea)|[-> Hn]]; cbn [obind].
  { eapply Forall_impl; [|exact Hpd]. cbn beta. intros; lia. }
  2:{ right. split; [reflexivity|]. intros hrp vals D. destruct (U _ _ D) as (_ & _ & _ & _ & U5 & U6). eapply Hn; [|exact U6].
      apply Forall_app. split; [exact U5|apply checksum_five]. }
  assert (La : length all = length d). { apply (f_equal (@length N)) in Ea. rewrite !map_length in Ea. lia. }
  set (hrp := map LowerCase p). set (vals := firstn (length all - 6) all). set (c := skipn (length all - 6) all).
  assert (Eall : all = vals ++ c) by (symmetry; apply firstn_skipn).
  assert (Lc : length c = 6%nat). { unfold c. rewrite skipn_length. unfold nlen in *. lia. }
  assert (Fvc : Forall five vals /\ Forall five c) by (rewrite Eall in Fa; apply Forall_app in Fa; exact Fa). destruct Fvc as [Fv Fc].
  pose proof (checksum_verifies hrp vals c (printable_bytes _ Hpp) Fv Fc Lc) as V. rewrite <- Eall in V.
  destruct (VerifyChecksum hrp all) eqn:VC; cbn [negb].
  - left. exists hrp, vals. split; [reflexivity|]. assert (c = CreateChecksum hrp vals) by (apply V; reflexivity).
    split; auto; [lia|]. exists p, d. split; [exact Et|]. split; [exact Hd|]. split; [reflexivity|]. split.
    + unfold hrp. destruct p; [unfold nlen in Lp; cbn [length] in Lp; lia|discriminate].
    + rewrite Ea, Eall. congruence.
  - right. split; [reflexivity|]. intros hrp' vals' D. destruct (U _ _ D) as (_ & _ & U3 & U4 & U5 & U6). fold hrp in U4. subst hrp'.
    rewrite Ea in U6. apply map_enc_inj in U6; [|exact Fa|apply Forall_app; split; [exact U5|apply checksum_five]].
    rewrite Eall in U6. apply app_inv_length in U6; [|unfold vals; rewrite firstn_length; unfold nlen in U3; lia]. destruct U6 as [Ev Ec].
    rewrite <- Ev in Ec. assert (false = true) by (apply V; exact Ec). discriminate.
Qed.

Lemma decoded_unique t h v h' v' : decoded t h v -> decoded t h' v' -> h = h' /\ v = v'.
Proof.
  intros [_ _ _ (p & d & E & Hd & Eh & _ & Em) F] [_ _ _ (p' & d' & E' & Hd' & Eh' & _ & Em') F'].
  assert (Q : nlen p = nlen p').
  { pose proof (rfind_last 49 p d Hd) as R1. pose proof (rfind_last 49 p' d' Hd') as R2. rewrite <- E in R1. rewrite <- E' in R2. congruence. }
  rewrite E' in E. unfold nlen in Q. destruct (app_inv_length p' (49 :: d') p (49 :: d) ltac:(lia) E) as [-> Ed]. injection Ed as ->.
  subst h h'. split; [reflexivity|]. rewrite Em in Em'.
  apply map_enc_inj in Em'; [|apply Forall_app; split; [assumption|apply checksum_five]..].
  apply app_inv_length in Em'; [apply Em'|]. apply (f_equal (@length N)) in Em'. rewrite !app_length, !checksum_length in Em'. lia.
Qed.

(** ** Addresses *)
Definition text (hrc : bytes) (vals : list N) : bytes := hrc ++ 49 :: map enc (vals ++ CreateChecksum hrc vals).
Lemma Encode_text hrc vals : Forall five vals -> Encode hrc vals = Ret (text hrc vals).
Proof. intros H. unfold Encode. rewrite encode_chars_map by (apply Forall_app; split; [exact H|apply checksum_five]). reflexivity. Qed.
Lemma to32_five data : is_bytes data -> Forall five (ToBase32 data).
Proof. intros H. apply (to32_regrouped data H). Qed.
Lemma decoded_text t hrp vals : Forall five vals ->
  (decoded t hrp vals <-> printable t /\ one_case t /\ nlen t <= 90 /\ hrp <> [] /\ lower t = text hrp vals).
Proof.
  intros Fv. rewrite lower_map. split.
  - intros [D1 D2 D3 (p & d & -> & Hd & -> & Hh & Em) D5]. repeat split; auto. rewrite map_app. cbn [map]. rewrite Em. reflexivity.
  - intros (H1 & H2 & H3 & H4 & E). split; auto. unfold text in E.
    destruct (skipn (length hrp) t) as [|x d] eqn:S.
    { apply (f_equal (@length N)) in E. rewrite map_length, app_length in E. cbn [length] in E. apply (f_equal (@length N)) in S. rewrite skipn_length in S. cbn in S. lia. }
    pose proof (firstn_skipn (length hrp) t) as F. rewrite S in F. set (p := firstn (length hrp) t) in *.
    assert (Lp : length p = length hrp).
    { unfold p. rewrite firstn_length. apply (f_equal (@length N)) in S. rewrite skipn_length in S. cbn in S. lia. }
    rewrite <- F, map_app in E. cbn [map] in E. apply app_inv_length in E; [|rewrite map_length; exact Lp]. destruct E as [E1 E2]. pose proof (f_equal (@tl N) E2) as E3. cbn [tl] in E3.
    apply (f_equal (hd 0)) in E2. cbn [hd] in E2. apply (proj1 (lower_sep x)) in E2. subst x. exists p, d. split; [symmetry; exact F|]. split.
    { intros Hi. apply (in_map LowerCase) in Hi. rewrite E3 in Hi. apply in_map_iff in Hi. destruct Hi as (v & Hv & Hi).
      change (LowerCase 49) with 49 in Hv. assert (v < 32).
      { revert Hi. assert (G : Forall five (vals ++ CreateChecksum hrp vals)) by (apply Forall_app; split; [exact Fv|apply checksum_five]). rewrite Forall_forall in G. apply G. }
      destruct (enc_ok v) as (_ & N49 & _); [assumption|]. contradiction. }
    split; [symmetry; exact E1|]. split; [exact H4|exact E3].
Qed.
Lemma Parse_exact t hrc data : Bech32Address_Parse t = Ret (hrc, data) <->
  printable t /\ one_case t /\ nlen t <= 90 /\ hrc <> [] /\ data <> [] /\ is_bytes data /\ Bech32Address_ToString hrc data = Ret (lower t).
Proof.
  unfold Bech32Address_Parse, Bech32Address_ToString. split.
  - destruct (Decode_cases t) as [(h & v & -> & D)|[-> _]]; cbn [obind fst snd]; [|discriminate].
    destruct h as [|h0 h]; [discriminate|]. destruct v as [|v0 v]; [discriminate|].
    destruct (FromBase32 (v0 :: v)) as [x| |] eqn:F; cbn [obind]; try discriminate. intros E.
    apply (f_equal (fun o => match o with Ret z => z | _ => ([], []) end)) in E. injection E as <- <-.
    pose proof (to_from _ _ F) as T. apply from32_spec in F. destruct F as [F1 F2].
    apply decoded_text in D; [|apply D]. destruct D as (D1 & D2 & D3 & D4 & D5). repeat split; auto; try discriminate.
    + intros ->. cbn in T. discriminate.
    + rewrite Encode_text by (apply to32_five; exact F1). rewrite <- T, D5. reflexivity.
  - intros (H1 & H2 & H3 & H4 & H5 & H6 & E). pose proof (to32_five _ H6) as Fv. rewrite Encode_text in E by exact Fv.
    apply (f_equal (fun o => match o with Ret z => z | _ => [] end)) in E.
    assert (D : decoded t hrc (ToBase32 data)) by (apply decoded_text; auto).
    destruct (Decode_cases t) as [(h & v & -> & D')|[_ N]]; [|exfalso; eapply N; exact D].
    destruct (decoded_unique _ _ _ _ _ D' D) as [-> ->].
    cbn [obind fst snd]. destruct hrc; [contradiction|]. 
    assert (T : ToBase32 data <> []). { pose proof (from_to _ H6) as F. intros Z. rewrite Z in F. cbn in F. injection F as <-. contradiction. }
    destruct (ToBase32 data) as [|v0 v] eqn:Q; [contradiction|]. rewrite <- Q, from_to by exact H6. reflexivity.
Qed.
