(** Proofs about the words of seed phrases, and the round trip. *)
From Coq Require Import Ascii String.
From Verif Require Import Base Bytes FileModel TextModel TextSpec TextProofs TextCheck WordListData MnemonicModel MnemonicSpec MnemonicProofs.
Local Open Scope N_scope.
Local Open Scope list_scope.

(* ------------------------------------------------------------------ the word list *)
Definition word_code (w : bytes) : N := radix 256 (firstn 8 (w ++ repeat 0 8)).
Fixpoint increasing (l : list N) : bool :=
  match l with
  | x :: (y :: _) as t => (x <? y) && increasing t
  | _ => true
  end.

Lemma increasing_all l x y : increasing (x :: l) = true -> In y l -> x < y.
Proof.
  revert x. induction l as [|z l IH]; intros x H Hy; [destruct Hy|].
  cbn [increasing] in H. apply andb_true_iff in H. destruct H as [H1 H2]. apply N.ltb_lt in H1.
  destruct Hy as [<-|Hy]; [exact H1|]. specialize (IH z H2 Hy). lia.
Qed.

Lemma increasing_NoDup l : increasing l = true -> NoDup l.
Proof.
  induction l as [|x l IH]; intros H; constructor.
  - intros Hi. pose proof (increasing_all l x x H Hi). lia.
  - apply IH. destruct l; [reflexivity|]. cbn [increasing] in H. apply andb_true_iff in H. tauto.
Qed.

Definition word_ok (w : bytes) : bool := negb (bytes_eqb w []) && forallb (fun c => (97 <=? c) && (c <=? 122)) w.

Lemma word_list_checked :
  Nat.eqb (length WORD_LIST) 2048 && increasing (map word_code WORD_LIST) && forallb word_ok WORD_LIST = true.
Proof. vm_compute. reflexivity. Qed.

Lemma word_list_facts : length WORD_LIST = 2048%nat /\ NoDup WORD_LIST /\ forall w, In w WORD_LIST -> word_ok w = true.
Proof.
  pose proof word_list_checked as H. apply andb_prop in H. destruct H as [H H3]. apply andb_prop in H. destruct H as [H1 H2].
  split; [apply Nat.eqb_eq; exact H1|]. split; [|apply forallb_forall; exact H3].
  apply increasing_NoDup in H2. apply NoDup_map_inv in H2. exact H2.
Qed.

Lemma word_list_length : length WORD_LIST = 2048%nat. Proof. apply word_list_facts. Qed.

Lemma word_nth i : i < 2048 -> nth_error WORD_LIST (N.to_nat i) = Some (word i).
Proof.
  intros H. pose proof word_list_length as L. unfold WORD_LIST in *. rewrite map_length in L.
  rewrite nth_error_map. unfold word.
  rewrite (nth_error_nth' word_strings EmptyString) by lia. reflexivity.
Qed.

Lemma word_ok_facts i : i < 2048 -> word i <> [] /\ Forall (fun c => 97 <= c <= 122) (word i).
Proof.
  intros H. destruct word_list_facts as (_ & _ & Q).
  assert (Hi : In (word i) WORD_LIST) by (eapply nth_error_In; apply word_nth; exact H).
  specialize (Q _ Hi). unfold word_ok in Q. apply andb_true_iff in Q. destruct Q as [Q1 Q2]. split.
  - intros E. rewrite E in Q1. discriminate Q1.
  - apply Forall_forall. intros c Hc. rewrite forallb_forall in Q2. specialize (Q2 c Hc). lia.
Qed.

Lemma find_word_some l : forall w j i, find_word l w j = Some i -> j <= i /\ nth_error l (N.to_nat (i - j)) = Some w.
Proof.
  induction l as [|x l IH]; intros w j i H; cbn [find_word] in H; [discriminate|].
  destruct (bytes_eqb x w) eqn:E.
  - apply bytes_eqb_spec in E. injection H as <-. split; [lia|]. rewrite N.sub_diag. cbn. congruence.
  - apply IH in H. destruct H as [H1 H2]. split; [lia|]. replace (N.to_nat (i - j)) with (S (N.to_nat (i - (j + 1)))) by lia. exact H2.
Qed.

Lemma find_word_nodup l : NoDup l -> forall w n j, nth_error l n = Some w -> find_word l w j = Some (j + N.of_nat n).
Proof.
  induction 1 as [|x l Hx Hl IH]; intros w n j H; [destruct n; discriminate|]. cbn [find_word].
  destruct n as [|n]; cbn in H.
  - injection H as ->. rewrite bytes_eqb_refl. f_equal. lia.
  - destruct (bytes_eqb x w) eqn:E.
    + apply bytes_eqb_spec in E. subst x. exfalso. apply Hx. eapply nth_error_In; eauto.
    + rewrite (IH w n (j + 1) H). f_equal. lia.
Qed.

Lemma find_word_word i : i < 2048 -> find_word WORD_LIST (word i) 0 = Some i.
Proof.
  intros H. destruct word_list_facts as (_ & Nd & _). rewrite (find_word_nodup _ Nd _ (N.to_nat i) 0 (word_nth i H)).
  f_equal. lia.
Qed.

Lemma find_words_iff words ws : find_words words = Ret ws <-> words = map word ws /\ Forall (fun w => w < 2048) ws.
Proof.
  revert ws. induction words as [|w words IH]; intros ws; cbn [find_words].
  - split.
    + intros E. injection E as <-. split; constructor.
    + intros [E _]. destruct ws; [reflexivity|discriminate].
  - split.
    + destruct (find_word WORD_LIST w 0) as [j|] eqn:Ej; [|discriminate].
      destruct (find_words words) as [r| |]; cbn [obind]; [|discriminate|discriminate].
      intros E. apply (f_equal (fun o => match o with Ret a => a | _ => ws end)) in E. cbv beta iota in E. subst ws.
      destruct (proj1 (IH r) eq_refl) as [-> F]. apply find_word_some in Ej. destruct Ej as [_ Ej]. rewrite N.sub_0_r in Ej.
      assert (Hj : j < 2048).
      { assert (Q : (N.to_nat j < length WORD_LIST)%nat) by (apply nth_error_Some; congruence). rewrite word_list_length in Q. lia. }
      rewrite (word_nth j Hj) in Ej. cbn [map]. split; [congruence|]. constructor; assumption.
    + intros [E F]. destruct ws as [|j ws]; [discriminate|]. cbn [map] in E. inversion F as [|? ? Hj F']; subst.
      assert (E1 : w = word j) by congruence. assert (E2 : words = map word ws) by congruence.
      rewrite E1, find_word_word by exact Hj. rewrite (proj2 (IH ws) (conj E2 F')). reflexivity.
Qed.

Lemma find_words_no_fault words : find_words words <> Fault.
Proof.
  induction words as [|w words IH]; cbn [find_words]; [discriminate|].
  destruct (find_word WORD_LIST w 0); [|discriminate]. destruct (find_words words); [discriminate|discriminate|contradiction].
Qed.

(* ------------------------------------------------------------------ spaced words *)
Lemma join_spaced ws : ws <> [] -> Forall (fun w => w < 2048) ws ->
  exists s, join_words true ws = Ret s /\ spaced (map word ws) s.
Proof.
  assert (G : forall ws, Forall (fun w => w < 2048) ws -> ws <> [] ->
     exists s, join_words false ws = Ret (32 :: s) /\ join_words true ws = Ret s /\ spaced (map word ws) s).
  { clear. induction ws as [|i ws IH]; intros F Hn; [contradiction|]. inversion F as [|? ? Hi F']; subst.
    cbn [join_words]. rewrite (word_nth i Hi). destruct ws as [|i2 ws].
    - cbn [join_words obind]. exists (word i). rewrite app_nil_r. split; [reflexivity|]. split; [reflexivity|]. constructor.
    - destruct (IH F' ltac:(discriminate)) as (s & E1 & E2 & S). rewrite E1. cbn [obind app].
      exists (word i ++ 32 :: s). split; [reflexivity|]. split; [reflexivity|].
      apply (spaced_more (word i) 0 _ s S). }
  intros Hn F. destruct (G ws F Hn) as (s & _ & E & S). eauto.
Qed.

Lemma word_no_space i : i < 2048 -> ~ In 32 (word i).
Proof. intros H Hi. destruct (word_ok_facts i H) as [_ F]. rewrite Forall_forall in F. specialize (F 32 Hi). lia. Qed.

Lemma spaced_split ws s trail : Forall (fun w => w < 2048) ws -> spaced (map word ws) s -> (trail = [] \/ exists n, trail = repeat 32 (S n)) ->
  Split (s ++ trail) 32 = map word ws.
Proof.
  revert s. induction ws as [|i ws IH]; intros s F S T; [inversion S|]. inversion F as [|? ? Hi F']; subst. cbn [map] in *.
  destruct (word_ok_facts i Hi) as [Hw _]. pose proof (word_no_space i Hi) as Hs.
  inversion S as [w E1 E2|w n ws' s' S' E1 E2]; subst.
  - destruct ws; [|discriminate]. destruct T as [->|[n ->]].
    + rewrite app_nil_r. apply Split_last; assumption.
    + cbn [repeat]. rewrite Split_token by assumption. f_equal. rewrite <- (app_nil_r (repeat 32 n)), Split_delims. reflexivity.
  - cbn [repeat]. rewrite <- !app_assoc. cbn [app]. rewrite Split_token by assumption. f_equal. rewrite Split_delims.
    apply IH; assumption.
Qed.

Lemma spaced_ends ws s : Forall (fun w => w < 2048) ws -> spaced (map word ws) s ->
  (exists a t, s = a :: t /\ ~ blank a) /\ (exists b t, s = t ++ [b] /\ ~ blank b) /\ Forall text_char (filter keep s) /\ ~ In 0 s /\ is_bytes s.
Proof.
  revert s. induction ws as [|i ws IH]; intros s F Sp; [inversion Sp|]. inversion F as [|? ? Hi F']; subst. cbn [map] in Sp.
  destruct (word_ok_facts i Hi) as [Hw Fw].
  assert (Nb : forall c, 97 <= c <= 122 -> ~ blank c) by (unfold blank; lia).
  assert (Tc : Forall text_char (word i)).
  { eapply Forall_impl; [|exact Fw]. intros c Hc. cbv beta in Hc. unfold text_char, blank. lia. }
  assert (A : exists a t, word i = a :: t /\ ~ blank a).
  { destruct (word i) as [|a t]; [contradiction|]. exists a, t. split; [reflexivity|]. inversion Fw; auto. }
  assert (B : exists b t, word i = t ++ [b] /\ ~ blank b).
  { destruct (exists_last Hw) as (t & b & E). exists b, t. split; [exact E|]. rewrite E in Fw. apply Forall_app in Fw. destruct Fw as [_ Fw]. inversion Fw; auto. }
  inversion Sp as [w E1 E2|w n ws' s' Sp' E1 E2]; subst.
  - split; [exact A|]. split; [exact B|]. split; [rewrite (filter_text _ Tc); exact Tc|]. split; [apply text_no_nul; exact Tc|apply text_bytes; exact Tc].
  - destruct (IH s' F' Sp') as (_ & (b & t & E & Hb) & H1 & H2 & H3). split; [|split; [|split; [|split]]].
    + destruct A as (a & t' & -> & Ha). exists a, (t' ++ repeat 32 (S n) ++ s'). auto.
    + exists b, (word i ++ repeat 32 (S n) ++ t). split; [rewrite E, !app_assoc; reflexivity|exact Hb].
    + rewrite !filter_app. apply Forall_app; split; [rewrite (filter_text _ Tc); exact Tc|]. apply Forall_app; split; [|exact H1].
      apply Forall_forall. intros x Hx. apply filter_In in Hx. destruct Hx as [Hx Hk]. apply repeat_spec in Hx. subst. discriminate Hk.
    + intros Hi0. apply in_app_or in Hi0. destruct Hi0 as [Hi0|Hi0]; [apply (text_no_nul _ Tc Hi0)|].
      apply in_app_or in Hi0. destruct Hi0 as [Hi0|Hi0]; [|contradiction]. apply repeat_spec in Hi0. discriminate.
    + apply Forall_app; split; [apply text_bytes; exact Tc|]. apply Forall_app; split; [|exact H3].
      apply Forall_forall. intros x Hx. apply repeat_spec in Hx. subst. lia.
Qed.

Lemma Trim_ends lead m trail : blanks lead -> blanks trail ->
  (exists a t, m = a :: t /\ ~ blank a) -> (exists b t, m = t ++ [b] /\ ~ blank b) -> Trim (lead ++ m ++ trail) = m.
Proof.
  intros Bl Bt (a & t & Em & Ha) (b & t2 & Em2 & Hb). unfold Trim.
  rewrite skip_spaces_app; [|exact Bl|rewrite Em; exact Ha].
  rewrite rev_app_distr. rewrite skip_spaces_app; [apply rev_involutive|apply Forall_rev; exact Bt|].
  rewrite Em2, rev_app_distr. exact Hb.
Qed.

Lemma Split_spaced s ws : Split s 32 = map word ws -> ws <> [] ->
  exists n body m, s = repeat 32 n ++ body ++ repeat 32 m /\ spaced (map word ws) body.
Proof.
  revert s. induction ws as [|i ws IH]; intros s E Hn; [contradiction|]. cbn [map] in E.
  destruct (Split_cons _ _ _ _ E) as (n & tail & Es & Hp & _ & T).
  destruct T as [[-> E']|(t & -> & E')].
  - rewrite E' in *. exists n, (word i), O. split; [rewrite Es; reflexivity|]. cbn [map]. rewrite E'. constructor.
  - destruct ws as [|i2 ws].
    + cbn in E'. destruct (Split_shape 32 t) as [(m & -> & _)|(m & p & tl & _ & _ & _ & [[_ Q]|(? & _ & Q)])]; [|congruence|congruence].
      exists n, (word i), (S m). split; [rewrite Es; reflexivity|]. constructor.
    + destruct (IH t (eq_sym E') ltac:(discriminate)) as (n2 & body & m & -> & Sp).
      exists n, (word i ++ repeat 32 (S n2) ++ body), m. split.
      * rewrite Es, <- !app_assoc. reflexivity.
      * cbn [map]. apply spaced_more. exact Sp.
Qed.

(* ------------------------------------------------------------------ bit lists *)
Lemma bits_length n x : length (bits n x) = n.
Proof. induction n; cbn; congruence. Qed.
Lemma bits_nth n x : forall p, (p < n)%nat -> nth p (bits n x) false = N.testbit x (N.of_nat (n - 1 - p)).
Proof.
  induction n as [|n IH]; intros p Hp; [lia|]. cbn [bits]. destruct p as [|p]; cbn [nth].
  - f_equal. lia.
  - rewrite IH by lia. f_equal. lia.
Qed.
Lemma flat_bits_length m l : length (flat_map (bits m) l) = (m * length l)%nat.
Proof. induction l as [|x l IH]; cbn [flat_map length]; [lia|]. rewrite app_length, bits_length, IH. lia. Qed.
Lemma flat_bits_nth m l : (0 < m)%nat -> forall j t, (t < m)%nat -> (j < length l)%nat ->
  nth (m * j + t) (flat_map (bits m) l) false = N.testbit (nth j l 0) (N.of_nat (m - 1 - t)).
Proof.
  intros Hm. induction l as [|x l IH]; intros j t Ht Hj; [cbn in Hj; lia|]. cbn [flat_map]. destruct j as [|j].
  - rewrite app_nth1 by (rewrite bits_length; lia). replace (m * 0 + t)%nat with t by lia. cbn [nth]. apply bits_nth. exact Ht.
  - cbn in Hj. rewrite app_nth2 by (rewrite bits_length; lia). rewrite bits_length.
    replace (m * S j + t - m)%nat with (m * j + t)%nat by lia. cbn [nth]. apply IH; lia.
Qed.

Section WithHash.
Variable SHA256 : bytes -> bytes.
Hypothesis hash_size : forall m, length (SHA256 m) = 32%nat /\ is_bytes (SHA256 m).

Lemma first_bits e k : (k <= 8)%nat -> firstn k (flat_map (bits 8) (SHA256 e)) = firstn k (bits 8 (nth 0 (SHA256 e) 0)).
Proof.
  intros Hk. destruct (hash_size e) as [L _]. destruct (SHA256 e) as [|h t]; [discriminate|]. cbn [flat_map nth].
  rewrite firstn_app. replace (k - length (bits 8 h))%nat with O by (rewrite bits_length; lia). rewrite firstn_O, app_nil_r. reflexivity.
Qed.

Lemma numbers_related e w k : nlen e = 4 * k -> 1 <= k <= 8 -> is_bytes e ->
  phrase_numbers SHA256 e w <-> related SHA256 e w k.
Proof.
  intros Le Hk Hb. unfold phrase_numbers, related.
  assert (Lk : Nat.div (length e) 4 = N.to_nat k). { unfold nlen in Le. assert (length e = 4 * N.to_nat k)%nat by lia. rewrite H, Nat.mul_comm, Nat.div_mul by lia. reflexivity. }
  rewrite Lk, first_bits by lia. set (h := nth 0 (SHA256 e) 0).
  assert (Lr : length (flat_map (bits 8) e ++ firstn (N.to_nat k) (bits 8 h)) = (33 * N.to_nat k)%nat).
  { rewrite app_length, flat_bits_length, firstn_length, bits_length. unfold nlen in Le. lia. }
  assert (Nr : forall p, (p < 33 * N.to_nat k)%nat -> nth p (flat_map (bits 8) e ++ firstn (N.to_nat k) (bits 8 h)) false = stream SHA256 e (N.of_nat p)).
  { intros p Hp. unfold stream. rewrite Le. fold h. destruct (N.ltb_spec (N.of_nat p) (8 * (4 * k))) as [Hlt|Hge].
    - rewrite app_nth1 by (rewrite flat_bits_length; unfold nlen in Le; lia).
      pose proof (Nat.div_mod p 8 ltac:(lia)) as D. pose proof (Nat.mod_upper_bound p 8 ltac:(lia)) as M.
      rewrite D at 1. rewrite flat_bits_nth; [|lia|exact M|unfold nlen in Le; lia].
      unfold at_. replace (N.to_nat (N.of_nat p / 8)) with (Nat.div p 8).
      + f_equal. lia.
      + lia.
    - rewrite app_nth2 by (rewrite flat_bits_length; unfold nlen in Le; lia). rewrite flat_bits_length.
      replace (p - 8 * length e)%nat with (p - 32 * N.to_nat k)%nat by (unfold nlen in Le; lia).
      assert (Hpk : (p - 32 * N.to_nat k < N.to_nat k)%nat) by lia.
      rewrite <- (firstn_skipn (N.to_nat k) (bits 8 h)) in |- *.
      assert (Q : nth (p - 32 * N.to_nat k) (firstn (N.to_nat k) (bits 8 h)) false = nth (p - 32 * N.to_nat k) (bits 8 h) false).
      { rewrite <- (firstn_skipn (N.to_nat k) (bits 8 h)) at 2. rewrite app_nth1; [reflexivity|]. rewrite firstn_length, bits_length. lia. }
      rewrite firstn_skipn. rewrite Q, bits_nth by lia. f_equal. lia. }
  split.
  - intros [F E].
    assert (Lw : nlen w = 3 * k).
    { pose proof (f_equal (@length bool) E) as Q. rewrite Lr, flat_bits_length in Q. unfold nlen. lia. }
    split; [exact Le|]. split; [exact Lw|]. intros j n Hj.
    destruct (N.ltb_spec n 11) as [Hn|Hn]; cbn [andb].
    + assert (Q : nth (11 * N.to_nat j + (10 - N.to_nat n)) (flat_map (bits 11) w) false = N.testbit (at_ w j) n).
      { rewrite flat_bits_nth; [|lia|lia|unfold nlen in Lw; lia]. unfold at_. f_equal. lia. }
      rewrite <- Q, E, Nr by lia. f_equal. lia.
    + pose proof (proj1 (small2048 SHA256 w) F) as F2. apply F2; [lia|exact Hn].
  - intros (_ & Lw & H). split.
    + apply (small2048 SHA256). intros j n Hj Hn. rewrite H by lia. destruct (N.ltb_spec n 11); [lia|reflexivity].
    + apply nth_ext with false false.
      * rewrite Lr, flat_bits_length. unfold nlen in Lw. lia.
      * intros p Hp. rewrite flat_bits_length in Hp. rewrite Nr by (unfold nlen in Lw; lia).
        pose proof (Nat.div_mod p 11 ltac:(lia)) as D. pose proof (Nat.mod_upper_bound p 11 ltac:(lia)) as M.
        rewrite D at 1. rewrite flat_bits_nth; [|lia|exact M|lia].
        assert (Q : nth (p / 11) w 0 = at_ w (N.of_nat (p / 11))) by (unfold at_; rewrite Nat2N.id; reflexivity).
        rewrite Q, H by (unfold nlen in Lw; lia).
        destruct (N.ltb_spec (N.of_nat (11 - 1 - p mod 11)) 11); [|lia]. cbn [andb]. f_equal. lia.
Qed.

Lemma seed_k e : seed_size e -> exists k, nlen e = 4 * k /\ 4 <= k <= 8.
Proof.
  intros [H1 H2]. exists (N.of_nat (Nat.div (length e) 4)). pose proof (Nat.div_mod (length e) 4 ltac:(lia)) as D. rewrite H2 in D.
  unfold nlen. lia.
Qed.

Lemma create_ok e : seed_size e -> is_bytes e -> exists s ws,
  CreateMnemonic SHA256 e = Ret s /\ spaced (map word ws) s /\ phrase_numbers SHA256 e ws.
Proof.
  intros Hs Hb. destruct (seed_k e Hs) as (k & Le & Hk). unfold CreateMnemonic. rewrite Le.
  replace (4 * k mod 4 =? 0) with true by (symmetry; apply N.eqb_eq; lia). cbn [negb].
  destruct (word_indices_ok SHA256 e k Le ltac:(lia)) as (ws & E & R). rewrite E. cbn [obind].
  apply (numbers_related e ws k Le ltac:(lia) Hb) in R.
  destruct (join_spaced ws) as (s & Ej & S).
  - destruct R as [_ R]. intros ->. cbn in R. destruct e as [|x e]; [unfold seed_size in Hs; cbn in Hs; lia|discriminate R].
  - apply R.
  - exists s, ws. auto.
Qed.

Lemma phrase_unique e ws ws' : phrase_numbers SHA256 e ws -> phrase_numbers SHA256 e ws' -> seed_size e -> is_bytes e -> ws = ws'.
Proof.
  intros R R' Hs Hb. destruct (seed_k e Hs) as (k & Le & Hk).
  apply (numbers_related e ws k Le ltac:(lia) Hb) in R. apply (numbers_related e ws' k Le ltac:(lia) Hb) in R'.
  eapply related_unique; eauto.
Qed.

Lemma to_entropy_iff s : ~ In 0 s ->
  (forall e, ToEntropy SHA256 s = Ret e <-> phrase SHA256 s e) /\ ToEntropy SHA256 s <> Fault.
Proof.
  intros H0. unfold ToEntropy. rewrite (c_str_id s H0).
  set (words := Split (Trim s) 32).
  destruct ((nlen words <? 12) || (24 <? nlen words) || negb (nlen words mod 3 =? 0)) eqn:G.
  - split; [|discriminate]. intros e. split; [discriminate|].
    intros (Hs & Hb & ws & lead & body & trail & Es & Bl & Bt & S & R). exfalso.
    destruct (seed_k e Hs) as (k & Le & Hk). pose proof R as [F _].
    apply (numbers_related e ws k Le ltac:(lia) Hb) in R. destruct R as (_ & Lw & _).
    assert (Ew : words = map word ws).
    { unfold words. destruct (spaced_ends ws body F S) as (A & B & _). rewrite Es, (Trim_ends lead body trail Bl Bt A B).
      rewrite <- (app_nil_r body). apply spaced_split; auto. }
    rewrite Ew in G. unfold nlen in *. rewrite map_length in G. lia.
  - destruct (find_words words) as [ws| |] eqn:Ef; cbn [obind].
    + apply find_words_iff in Ef. destruct Ef as [Ew F].
      assert (Lw : nlen words = nlen ws) by (rewrite Ew; unfold nlen; rewrite map_length; reflexivity).
      rewrite Lw in G. rewrite !orb_false_iff, negb_false_iff in G. destruct G as ((G1 & G2) & G3).
      apply N.ltb_ge in G1, G2. apply N.eqb_eq in G3.
      set (k := nlen ws / 3). assert (Lk : nlen ws = 3 * k) by (unfold k; lia). assert (Hk : 4 <= k <= 8) by lia.
      split; [|apply (entropy_of_iff SHA256 ws k [] Lk Hk F)].
      intros e. destruct (entropy_of_iff SHA256 ws k e Lk Hk F) as [Q _]. rewrite Q. clear Q. split.
      * intros [R Hb]. assert (Le : nlen e = 4 * k) by apply R.
        split; [|split; [exact Hb|]].
        { unfold seed_size. unfold nlen in Le. split; [lia|]. replace (length e) with (N.to_nat k * 4)%nat by lia. apply Nat.mod_mul. lia. }
        apply (numbers_related e ws k Le ltac:(lia) Hb) in R.
        destruct (Split_spaced (Trim s) ws) as (n & body & m & Et & S).
        { fold words. exact Ew. }
        { intros ->. cbn in Lk. lia. }
        destruct (Trim_parts s) as (lead & trail & Es & Bl & Bt).
        exists ws, (lead ++ repeat 32 n), body, (repeat 32 m ++ trail).
        assert (Br : forall n, blanks (repeat 32 n)).
        { intros n'. apply Forall_forall. intros x Hx. apply repeat_spec in Hx. subst. left. reflexivity. }
        split; [rewrite Es at 1; rewrite Et, <- !app_assoc; reflexivity|].
        split; [apply Forall_app; split; [exact Bl|apply Br]|]. split; [apply Forall_app; split; [apply Br|exact Bt]|]. split; [exact S|exact R].
      * intros (Hs & Hb & ws' & lead & body & trail & Es & Bl & Bt & S & R).
        destruct (seed_k e Hs) as (k' & Le & Hk'). pose proof R as [F' _].
        apply (numbers_related e ws' k' Le ltac:(lia) Hb) in R.
        assert (Ew' : words = map word ws').
        { unfold words. destruct (spaced_ends ws' body F' S) as (A & B & _). rewrite Es, (Trim_ends lead body trail Bl Bt A B).
          rewrite <- (app_nil_r body). apply spaced_split; auto. }
        assert (Eww : ws = ws').
        { pose proof (proj2 (find_words_iff words ws) (conj Ew F)) as P1. pose proof (proj2 (find_words_iff words ws') (conj Ew' F')) as P2.
          rewrite P1 in P2. apply (f_equal (fun o => match o with Ret a => a | _ => ws end)) in P2. exact P2. }
        subst ws'. assert (k' = k) by (destruct R as (_ & L & _); lia). subst k'. split; assumption.
    + split; [|discriminate]. intros e. split; [discriminate|].
      intros (Hs & Hb & ws & lead & body & trail & Es & Bl & Bt & S & R). exfalso. pose proof R as [F _].
      assert (Ew : words = map word ws).
      { unfold words. destruct (spaced_ends ws body F S) as (A & B & _). rewrite Es, (Trim_ends lead body trail Bl Bt A B).
        rewrite <- (app_nil_r body). apply spaced_split; auto. }
      pose proof (proj2 (find_words_iff words ws) (conj Ew F)). congruence.
    + exfalso. apply (find_words_no_fault words). exact Ef.
Qed.

Lemma mnemonic_roundtrip e : seed_size e -> is_bytes e ->
  exists s, CreateMnemonic SHA256 e = Ret s /\ ToEntropy SHA256 s = Ret e.
Proof.
  intros Hs Hb. destruct (create_ok e Hs Hb) as (s & ws & E & S & R). exists s. split; [exact E|].
  destruct (spaced_ends ws s (proj1 R) S) as (_ & _ & _ & H0 & _).
  apply (to_entropy_iff s H0). split; [exact Hs|]. split; [exact Hb|].
  exists ws, [], s, []. rewrite app_nil_r. repeat split; auto; try constructor; apply R.
Qed.
End WithHash.
