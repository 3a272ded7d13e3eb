(** Proofs about radix conversion, Base58, hexadecimal and the armor framing. *)
From Coq Require Import Ascii String.
From Verif Require Import Base Bytes FileModel TextModel TextSpec.
Local Open Scope N_scope.
Local Open Scope list_scope.

(* ------------------------------------------------------------------ digits *)
Fixpoint le_val (b : N) (l : list N) : N :=
  match l with [] => 0 | d :: l' => d + b * le_val b l' end.
Definition digits (b : N) (l : list N) : Prop := Forall (fun d => d < b) l.

Lemma radix_app b l d : radix b (l ++ [d]) = radix b l * b + d.
Proof. unfold radix. rewrite fold_left_app. reflexivity. Qed.

Lemma le_val_rev b l : le_val b (rev l) = radix b l.
Proof.
  induction l as [|d l IH] using rev_ind; [reflexivity|].
  rewrite rev_app_distr, radix_app. cbn [rev app le_val]. rewrite IH. lia.
Qed.

Lemma radix_rev b l : radix b (rev l) = le_val b l.
Proof. rewrite <- (rev_involutive l) at 2. rewrite le_val_rev. reflexivity. Qed.

Lemma le_val_app b l l' : le_val b (l ++ l') = le_val b l + b ^ N.of_nat (length l) * le_val b l'.
Proof.
  induction l as [|d l IH]; cbn [app le_val length].
  - rewrite N.pow_0_r. lia.
  - rewrite IH, Nat2N.inj_succ, N.pow_succ_r by lia. remember (b ^ N.of_nat (length l)) as p.
    remember (le_val b l') as v. rewrite !N.mul_add_distr_l, N.mul_assoc. lia.
Qed.

Lemma le_val_bound b l : digits b l -> 0 < b -> le_val b l < b ^ N.of_nat (length l).
Proof.
  intros H Hb. induction H as [|d l Hd Hl IH]; cbn [le_val length].
  - cbn. lia.
  - rewrite Nat2N.inj_succ, N.pow_succ_r by lia. remember (b ^ N.of_nat (length l)) as p.
    apply N.lt_le_trans with (b + b * le_val b l); [lia|].
    replace (b + b * le_val b l) with (b * (1 + le_val b l)) by lia. apply N.mul_le_mono_l. lia.
Qed.

Definition zeros (l : list N) : Prop := Forall (fun d => d = 0) l.

Lemma le_val_zeros b l : zeros l -> le_val b l = 0.
Proof. induction 1 as [|d l Hd Hl IH]; cbn [le_val]; [reflexivity|]. rewrite IH, Hd. lia. Qed.

Lemma zeros_repeat n : zeros (repeat 0 n).
Proof. induction n; cbn; constructor; auto. Qed.

Lemma zeros_is_repeat l : zeros l -> l = repeat 0 (length l).
Proof. induction 1 as [|d l Hd Hl IH]; cbn; congruence. Qed.

(** little-endian lists without a trailing zero are determined by their value *)
Definition canon (l : list N) : Prop := match l with [] => True | _ => last l 0 <> 0 end.

Lemma last_cons2 (d e : N) l : last (d :: e :: l) 0 = last (e :: l) 0.
Proof. reflexivity. Qed.

Lemma canon_tl d l : canon (d :: l) -> canon l.
Proof. destruct l as [|e l]; cbn [canon]; auto. Qed.

Lemma canon_zero b l : 0 < b -> canon l -> le_val b l = 0 -> l = [].
Proof.
  intros Hb. induction l as [|d l IH]; intros C E; [reflexivity|]. exfalso. cbn [le_val] in E.
  assert (Hd : d = 0) by lia. assert (Hv : le_val b l = 0) by (apply N.eq_mul_0_r with b; lia).
  specialize (IH (canon_tl _ _ C) Hv). subst. cbn in C. lia.
Qed.

Lemma canon_inj b l l' : 1 < b -> digits b l -> digits b l' -> canon l -> canon l' ->
  le_val b l = le_val b l' -> l = l'.
Proof.
  intros Hb H. revert l'. induction H as [|d l Hd Hl IH]; intros l' H' C C' E.
  - symmetry. apply canon_zero with b; [lia|assumption|]. cbn in E. lia.
  - destruct l' as [|d' l'].
    { apply canon_zero with b; [lia|assumption|]. rewrite E. reflexivity. }
    inversion H' as [|? ? Hd' Hl']; subst. cbn [le_val] in E.
    assert (Hdd : d = d').
    { pose proof (f_equal (fun x => x mod b) E) as M. cbn beta in M.
      rewrite !(N.mul_comm b), !N.mod_add, !N.mod_small in M by lia. exact M. }
    subst d'. assert (Hv : le_val b l = le_val b l').
    { apply N.mul_cancel_l with b; lia. }
    f_equal. apply IH; auto; eapply canon_tl; eauto.
Qed.

Lemma canon_rev l : no_leading_zero l <-> canon (rev l).
Proof.
  destruct l as [|d l]; [split; constructor|]. cbn [no_leading_zero rev].
  assert (E : last (rev l ++ [d]) 0 = d) by apply last_last.
  unfold canon. destruct (rev l ++ [d]) eqn:Er; [destruct (rev l); discriminate|]. rewrite E. tauto.
Qed.

Lemma radix_inj b l l' : 1 < b -> digits b l -> digits b l' -> no_leading_zero l -> no_leading_zero l' ->
  radix b l = radix b l' -> l = l'.
Proof.
  intros Hb H H' C C' E. rewrite <- (rev_involutive l), <- (rev_involutive l'). f_equal.
  apply canon_inj with b; auto.
  - apply Forall_rev; assumption.
  - apply Forall_rev; assumption.
  - apply canon_rev; assumption.
  - apply canon_rev; assumption.
  - rewrite !le_val_rev. exact E.
Qed.

Lemma skip_zeroes_split l : exists n, l = repeat 0 n ++ skip_zeroes l /\ no_leading_zero (skip_zeroes l).
Proof.
  induction l as [|d l IH].
  - exists O. split; [reflexivity|exact Logic.I].
  - cbn [skip_zeroes]. destruct (N.eqb_spec d 0) as [->|Hd].
    + destruct IH as (n & E & H). exists (S n). split; [cbn; f_equal; exact E|exact H].
    + exists O. split; [reflexivity|exact Hd].
Qed.

Lemma radix_zeros_app b n l : radix b (repeat 0 n ++ l) = radix b l.
Proof.
  induction n as [|n IH]; [reflexivity|]. cbn [repeat app]. rewrite <- IH.
  unfold radix. cbn [fold_left]. try (f_equal; lia).
Qed.

Lemma radix_skip_zeroes b l : radix b (skip_zeroes l) = radix b l.
Proof.
  destruct (skip_zeroes_split l) as (n & E & _). rewrite E at 2. rewrite radix_zeros_app. reflexivity.
Qed.

Lemma digits_skip_zeroes b l : digits b l -> digits b (skip_zeroes l).
Proof.
  intros H. destruct (skip_zeroes_split l) as (n & E & _). rewrite E in H. apply Forall_app in H. tauto.
Qed.

(* ------------------------------------------------------------------ the inner loop *)
Lemma Forall_skipn {A} (P : A -> Prop) n l : Forall P l -> Forall P (skipn n l).
Proof. revert l; induction n; intros l H; [exact H|]. destruct H; cbn; auto. Qed.

Lemma mul_add_spec m base length buf : 0 < base -> forall i carry r i' c',
  digits base buf -> zeros (skipn (length - i) buf) ->
  mul_add m base length i carry buf = (r, i', c') ->
  le_val base r + c' * base ^ N.of_nat (List.length buf) = carry + m * le_val base buf /\
  List.length r = List.length buf /\ digits base r /\ (i <= i')%nat /\ zeros (skipn (i' - i) r).
Proof.
  intros Hb. induction buf as [|d buf IH]; intros i carry r i' c' Hd Hz E; cbn [mul_add] in E.
  - injection E as <- <- <-. cbn [le_val List.length]. rewrite N.pow_0_r.
    repeat split; try lia; [constructor|]. rewrite Nat.sub_diag. constructor.
  - destruct (negb (carry =? 0) || (i <? length)%nat)%bool eqn:Ec.
    + destruct (mul_add m base length (S i) ((carry + m * d) / base) buf) as [[r1 i1] c1] eqn:Er.
      injection E as <- <- <-. inversion Hd as [|? ? Hd1 Hd2]; subst.
      assert (Hz1 : zeros (skipn (length - S i) buf)).
      { destruct (length - i)%nat as [|k] eqn:Ek.
        - replace (length - S i)%nat with O by lia. inversion Hz; assumption.
        - replace (length - S i)%nat with k by lia. exact Hz. }
      destruct (IH _ _ _ _ _ Hd2 Hz1 Er) as (V & L & D & Hi & Z).
      cbn [le_val List.length]. rewrite Nat2N.inj_succ, N.pow_succ_r by lia.
      pose proof (N.div_mod (carry + m * d) base ltac:(lia)) as Q.
      remember ((carry + m * d) / base) as q. remember ((carry + m * d) mod base) as t.
      assert (Ht : t < base) by (subst t; apply N.mod_lt; lia).
      remember (base ^ N.of_nat (List.length buf)) as p. remember (le_val base r1) as v1. remember (le_val base buf) as v.
      split; [|repeat split].
      * replace (t + base * v1 + c1 * (base * p)) with (t + base * (v1 + c1 * p)) by lia.
        rewrite V. replace (m * (d + base * v)) with (m * d + base * (m * v)) by lia. lia.
      * rewrite L; reflexivity.
      * constructor; assumption.
      * lia.
      * replace (i1 - i)%nat with (S (i1 - S i)) by lia. exact Z.
    + injection E as <- <- <-. apply orb_false_iff in Ec. destruct Ec as [Ec Ei].
      apply negb_false_iff, N.eqb_eq in Ec. apply Nat.ltb_ge in Ei. subst carry.
      replace (length - i)%nat with O in Hz by lia. cbn [skipn] in Hz.
      rewrite (le_val_zeros base (d :: buf) Hz). repeat split; auto; try lia.
      rewrite Nat.sub_diag. exact Hz.
Qed.

(** a buffer of the outer loops: digits, zero from [len] on *)
Definition buffer (base : N) (buf : list N) (len : nat) : Prop := digits base buf /\ zeros (skipn len buf).

Lemma mul_add_ok m base buf len ch n :
  1 < base -> 0 < m -> ch < m -> buffer base buf len ->
  (le_val base buf + 1) * (m * n) <= base ^ N.of_nat (length buf) -> 0 < n ->
  exists r i, mul_add m base len 0 ch buf = (r, i, 0) /\ length r = length buf /\ buffer base r i /\
    le_val base r = le_val base buf * m + ch /\ (le_val base r + 1) * n <= base ^ N.of_nat (length r).
Proof.
  intros Hb Hm Hch [Hd Hz] Hbound Hn.
  destruct (mul_add m base len 0 ch buf) as [[r i] c] eqn:E.
  assert (Hz0 : zeros (skipn (len - 0) buf)) by (rewrite Nat.sub_0_r; exact Hz).
  destruct (mul_add_spec m base len buf ltac:(lia) 0 ch r i c Hd Hz0 E) as (V & L & D & _ & Z).
  rewrite Nat.sub_0_r in Z.
  remember (base ^ N.of_nat (length buf)) as p. remember (le_val base buf) as v.
  assert (Hc : c = 0).
  { destruct (N.eq_dec c 0) as [|Hc]; [assumption|exfalso].
    assert (p <= c * p). { rewrite <- (N.mul_1_l p) at 1. apply N.mul_le_mono_r. lia. }
    assert ((v + 1) * m <= p).
    { apply N.le_trans with ((v + 1) * (m * n)); [|exact Hbound]. rewrite N.mul_assoc.
      rewrite <- (N.mul_1_r ((v + 1) * m)) at 1. apply N.mul_le_mono_l. lia. }
    lia. }
  subst c. exists r, i. rewrite L. rewrite <- Heqp. repeat split; auto.
  - lia.
  - apply N.le_trans with ((v + 1) * (m * n)); [|exact Hbound].
    rewrite N.mul_assoc. apply N.mul_le_mono_r. lia.
Qed.

(* ------------------------------------------------------------------ Encode *)
Lemma encode_loop_spec data : is_bytes data -> forall buf len,
  buffer 58 buf len -> (le_val 58 buf + 1) * 256 ^ N.of_nat (length data) <= 58 ^ N.of_nat (length buf) ->
  exists r i, encode_loop data buf len = Ret (r, i) /\ length r = length buf /\ buffer 58 r i /\
    le_val 58 r = fold_left (fun acc d => acc * 256 + d) data (le_val 58 buf).
Proof.
  induction 1 as [|ch data Hch Hdata IH]; intros buf len B Hb; cbn [encode_loop].
  - exists buf, len. auto.
  - cbn [length] in Hb. rewrite Nat2N.inj_succ, N.pow_succ_r in Hb by lia.
    assert (Hp : 0 < 256 ^ N.of_nat (length data)).
    { apply N.neq_0_lt_0, N.pow_nonzero. lia. }
    destruct (mul_add_ok 256 58 buf len ch _ ltac:(lia) ltac:(lia) Hch B Hb Hp) as (r & i & E & L & B' & V & Hb').
    rewrite E. cbn [N.eqb]. change (0 =? 0) with true. cbn iota.
    destruct (IH r i B' Hb') as (r2 & i2 & E2 & L2 & B2 & V2).
    exists r2, i2. split; [exact E2|]. split; [congruence|]. split; [exact B2|].
    rewrite V2, V. reflexivity.
Qed.

Lemma buffer_start base n : 0 < base -> buffer base (repeat 0 n) 0.
Proof.
  intros Hb. split; [|apply zeros_repeat].
  apply Forall_forall. intros x Hx. apply repeat_spec in Hx. subst. exact Hb.
Qed.

(** the digits actually copied out *)
Lemma buffer_out base buf len : buffer base buf len ->
  digits base (skip_zeroes (rev (firstn len buf))) /\ no_leading_zero (skip_zeroes (rev (firstn len buf))) /\
  radix base (skip_zeroes (rev (firstn len buf))) = le_val base buf.
Proof.
  intros [D Z]. split; [|split].
  - apply digits_skip_zeroes. apply Forall_rev. rewrite <- (firstn_skipn len buf) in D. apply Forall_app in D. tauto.
  - destruct (skip_zeroes_split (rev (firstn len buf))) as (n & _ & H). exact H.
  - rewrite radix_skip_zeroes, radix_rev. rewrite <- (firstn_skipn len buf) at 2.
    rewrite le_val_app, (le_val_zeros _ _ Z). lia.
Qed.

(** the sizes are large enough *)
Fixpoint all_below (n : nat) (f : N -> bool) : bool :=
  match n with O => true | S n' => f (N.of_nat n') && all_below n' f end.
Lemma all_below_ok n f : all_below n f = true -> forall r, r < N.of_nat n -> f r = true.
Proof.
  induction n as [|n IH]; intros H r Hr; [lia|]. cbn [all_below] in H. apply andb_true_iff in H. destruct H as [H1 H2].
  destruct (N.eq_dec r (N.of_nat n)) as [->|Hne]; [exact H1|]. apply IH; [exact H2|lia].
Qed.

Lemma pow_size a b q p n : 0 < b -> 0 < q -> a ^ q <= b ^ p -> a ^ n <= b ^ (n * p / q + 1).
Proof.
  intros Hb Hq H. apply N.nlt_ge. intros Hlt.
  apply (N.pow_lt_mono_l _ _ q) in Hlt; [|lia].
  rewrite <- !N.pow_mul_r in Hlt. rewrite (N.mul_comm n q) in Hlt.
  apply N.lt_nge in Hlt. apply Hlt.
  apply N.le_trans with (b ^ (p * n)).
  - rewrite !N.pow_mul_r. apply N.pow_le_mono_l. exact H.
  - apply N.pow_le_mono_r; [lia|].
    pose proof (N.div_mod (n * p) q ltac:(lia)) as E. pose proof (N.mod_lt (n * p) q ltac:(lia)) as Hr.
    remember (n * p / q) as t. lia.
Qed.

Lemma encode_size n : 256 ^ n <= 58 ^ (n * 138 / 100 + 1).
Proof. apply pow_size; [lia|lia|]. apply N.leb_le. vm_compute. reflexivity. Qed.

Lemma decode_size n : 58 ^ n <= 256 ^ (n * 733 / 1000 + 1).
Proof. apply pow_size; [lia|lia|]. apply N.leb_le. vm_compute. reflexivity. Qed.

Lemma le_val_start base n : le_val base (repeat 0 n) = 0.
Proof. apply le_val_zeros, zeros_repeat. Qed.

Lemma count_leading_spec c s n r : count_leading c s = (n, r) ->
  s = repeat c n ++ r /\ match r with [] => True | x :: _ => x <> c end.
Proof.
  revert n r; induction s as [|x s IH]; intros n r E; cbn [count_leading] in E.
  - injection E as <- <-. split; [reflexivity|exact Logic.I].
  - destruct (N.eqb_spec x c) as [->|Hx].
    + destruct (count_leading c s) as [n1 r1] eqn:E1. injection E as <- <-.
      destruct (IH _ _ eq_refl) as [H1 H2]. split; [cbn; congruence|exact H2].
    + injection E as <- <-. split; [reflexivity|exact Hx].
Qed.

Lemma count_leading_app c n s : match s with [] => True | x :: _ => x <> c end ->
  count_leading c (repeat c n ++ s) = (n, s).
Proof.
  intros H. induction n as [|n IH]; cbn [repeat app].
  - destruct s as [|x s]; [reflexivity|]. cbn [count_leading]. apply N.eqb_neq in H. rewrite H. reflexivity.
  - cbn [count_leading]. rewrite N.eqb_refl, IH. reflexivity.
Qed.

(** the core of Encode on bytes without the version rule *)
Lemma encode_core data : is_bytes data ->
  exists b i, encode_loop data (repeat 0 (N.to_nat (nlen data * 138 / 100 + 1))) 0 = Ret (b, i) /\
    let ds := skip_zeroes (rev (firstn i b)) in
    digits 58 ds /\ no_leading_zero ds /\ radix 58 ds = radix 256 data.
Proof.
  intros H. set (size := N.to_nat (nlen data * 138 / 100 + 1)).
  destruct (encode_loop_spec data H (repeat 0 size) 0%nat) as (r & i & E & L & B & V).
  - apply buffer_start. lia.
  - rewrite le_val_start, repeat_length. subst size. rewrite N2Nat.id.
    change (0 + 1) with 1. rewrite N.mul_1_l. unfold nlen. apply encode_size.
  - exists r, i. split; [exact E|]. destruct (buffer_out 58 r i B) as (D & Z & R). cbn zeta.
    split; [exact D|]. split; [exact Z|]. rewrite R, V, le_val_start. reflexivity.
Qed.

Definition b58char (d : N) : N := nth (N.to_nat d) pszBase58 0.

Lemma encode_true_spec data : is_bytes data ->
  exists z rest ds, data = repeat 0 z ++ rest /\ is_bytes rest /\ no_leading_zero rest /\
    digits 58 ds /\ no_leading_zero ds /\ radix 58 ds = radix 256 rest /\
    Encode_ data true = Ret (repeat 49 z ++ map b58char ds).
Proof.
  intros H. unfold Encode_. destruct (count_leading 0 data) as [z rest] eqn:Ec.
  destruct (count_leading_spec _ _ _ _ Ec) as [Ed Hn].
  assert (Hr : is_bytes rest) by (rewrite Ed in H; apply Forall_app in H; tauto).
  destruct (encode_core rest Hr) as (b & i & E & D & Z & R). rewrite E. cbn [obind].
  exists z, rest, (skip_zeroes (rev (firstn i b))). repeat split; auto.
Qed.

Lemma encode_false_spec data : is_bytes data ->
  exists ds, digits 58 ds /\ no_leading_zero ds /\ radix 58 ds = radix 256 data /\
    Encode_ data false = Ret (map b58char ds).
Proof.
  intros H. unfold Encode_. destruct (encode_core data H) as (b & i & E & D & Z & R). rewrite E. cbn [obind].
  exists (skip_zeroes (rev (firstn i b))). repeat split; auto.
Qed.

(* ------------------------------------------------------------------ Decode *)
Lemma IsSpace_blank c : IsSpace c = true <-> blank c.
Proof. unfold IsSpace, blank. rewrite !orb_true_iff, !N.eqb_eq. lia. Qed.
Lemma IsSpace_nblank c : IsSpace c = false <-> ~ blank c.
Proof. rewrite <- IsSpace_blank. destruct (IsSpace c); intuition congruence. Qed.

Lemma base58_digit_spec c d : c < 256 -> (base58_digit c = Some d <-> digit_in base58_alphabet c d).
Proof.
  intros Hc.
  assert (A : all_below 256 (fun c =>
     match base58_digit c with
     | Some d => match nth_error base58_alphabet (N.to_nat d) with Some c' => c' =? c | None => false end
     | None => negb (existsb (N.eqb c) base58_alphabet)
     end) = true) by (vm_compute; reflexivity).
  assert (B : all_below 58 (fun d =>
     match nth_error base58_alphabet (N.to_nat d) with
     | Some c => match base58_digit c with Some d' => d' =? d | None => false end
     | None => false end) = true) by (vm_compute; reflexivity).
  split; intros H.
  - pose proof (all_below_ok _ _ A c Hc) as Q. cbn beta in Q. rewrite H in Q. unfold digit_in.
    destruct (nth_error base58_alphabet (N.to_nat d)) as [c'|]; [|discriminate]. apply N.eqb_eq in Q. congruence.
  - assert (Hd : d < 58).
    { unfold digit_in in H. assert (L : (N.to_nat d < length base58_alphabet)%nat) by (apply nth_error_Some; congruence).
      change (length base58_alphabet) with 58%nat in L. lia. }
    pose proof (all_below_ok _ _ B d Hd) as Q. cbn beta in Q. unfold digit_in in H. rewrite H in Q.
    destruct (base58_digit c) as [d'|]; [|discriminate]. apply N.eqb_eq in Q. congruence.
Qed.

Lemma digit_in_bound c d : digit_in base58_alphabet c d -> d < 58.
Proof.
  unfold digit_in. intros H.
  assert (L : (N.to_nat d < length base58_alphabet)%nat) by (apply nth_error_Some; congruence).
  change (length base58_alphabet) with 58%nat in L. lia.
Qed.

Lemma digit_in_char d : d < 58 -> digit_in base58_alphabet (b58char d) d.
Proof.
  intros H. unfold digit_in, b58char. change pszBase58 with base58_alphabet.
  apply nth_error_nth'. change (length base58_alphabet) with 58%nat. lia.
Qed.

Lemma digit_in_facts c d : digit_in base58_alphabet c d -> c < 256 /\ c <> 0 /\ ~ blank c /\ c <> 46 /\ (c = 49 <-> d = 0).
Proof.
  intros H.
  assert (B : all_below 58 (fun d =>
     match nth_error base58_alphabet (N.to_nat d) with
     | Some c => (c <? 256) && negb (c =? 0) && negb (IsSpace c) && negb (c =? 46) && Bool.eqb (c =? 49) (d =? 0)
     | None => false end) = true) by (vm_compute; reflexivity).
  pose proof (all_below_ok _ _ B d (digit_in_bound _ _ H)) as Q. cbn beta in Q. unfold digit_in in H. rewrite H in Q.
  rewrite !andb_true_iff, !negb_true_iff in Q. destruct Q as ((((Q1 & Q2) & Q3) & Q4) & Q5).
  apply N.ltb_lt in Q1. apply N.eqb_neq in Q2. apply IsSpace_nblank in Q3. apply N.eqb_neq in Q4. apply Bool.eqb_prop in Q5.
  repeat split; auto.
  - intros ->. apply N.eqb_eq. rewrite <- Q5. reflexivity.
  - intros ->. apply N.eqb_eq. rewrite Q5. reflexivity.
Qed.

Lemma skip_spaces_spec s : exists lead, s = lead ++ skip_spaces s /\ blanks lead /\
  match skip_spaces s with [] => True | c :: _ => ~ blank c end.
Proof.
  induction s as [|c s IH].
  - exists []. repeat split; constructor.
  - cbn [skip_spaces]. destruct (IsSpace c) eqn:Ec.
    + destruct IH as (lead & E & B & H). exists (c :: lead). split; [cbn; congruence|].
      split; [constructor; [apply IsSpace_blank; exact Ec|exact B]|exact H].
    + exists []. split; [reflexivity|]. split; [constructor|]. apply IsSpace_nblank. exact Ec.
Qed.

Lemma skip_spaces_app lead s : blanks lead -> match s with [] => True | c :: _ => ~ blank c end ->
  skip_spaces (lead ++ s) = s.
Proof.
  intros B H. induction B as [|c lead Hc B IH]; cbn [app].
  - destruct s as [|c s]; [reflexivity|]. cbn [skip_spaces]. apply IsSpace_nblank in H. rewrite H. reflexivity.
  - cbn [skip_spaces]. apply IsSpace_blank in Hc. rewrite Hc. exact IH.
Qed.

(** [body] digits, then [rest] that is empty or starts with a blank *)
Definition at_blank (s : bytes) : Prop := match s with [] => True | c :: _ => blank c end.

Lemma decode_loop_spec psz : is_bytes psz -> forall buf len,
  buffer 256 buf len -> (le_val 256 buf + 1) * 58 ^ N.of_nat (length psz) <= 256 ^ N.of_nat (length buf) ->
  match decode_loop psz buf len with
  | Ret (r, i, rest) => exists body ds, psz = body ++ rest /\ Forall2 (digit_in base58_alphabet) body ds /\
      at_blank rest /\ buffer 256 r i /\ le_val 256 r = fold_left (fun acc d => acc * 58 + d) ds (le_val 256 buf)
  | Throw => forall body ds rest, psz = body ++ rest -> Forall2 (digit_in base58_alphabet) body ds -> at_blank rest -> False
  | Fault => False
  end.
Proof.
  induction 1 as [|c psz Hc Hpsz IH]; intros buf len B Hb; cbn [decode_loop].
  - exists [], []. repeat split; auto; apply B.
  - destruct (IsSpace c) eqn:Es.
    { exists [], []. apply IsSpace_blank in Es. repeat split; auto; apply B. }
    destruct (base58_digit c) as [d|] eqn:Ed.
    + apply (base58_digit_spec c d Hc) in Ed. pose proof (digit_in_bound _ _ Ed) as Hd.
      cbn [length] in Hb. rewrite Nat2N.inj_succ, N.pow_succ_r in Hb by lia.
      assert (Hp : 0 < 58 ^ N.of_nat (length psz)).
      { apply N.neq_0_lt_0, N.pow_nonzero. lia. }
      destruct (mul_add_ok 58 256 buf len d _ ltac:(lia) ltac:(lia) Hd B Hb Hp) as (r & i & E & L & B' & V & Hb').
      rewrite E. change (0 =? 0) with true. cbn iota.
      specialize (IH r i B' Hb'). destruct (decode_loop psz r i) as [[[r2 i2] rest]| |].
      * destruct IH as (body & ds & E2 & F & A & B2 & V2). exists (c :: body), (d :: ds).
        split; [cbn; congruence|]. split; [constructor; assumption|]. split; [exact A|]. split; [exact B2|].
        rewrite V2, V. reflexivity.
      * intros body ds rest E2 F A. destruct F as [|x y body ds Hxy F].
        { cbn in E2. subst rest. cbn in A. apply IsSpace_nblank in Es. contradiction. }
        cbn in E2. injection E2 as <- E2. eapply IH; eauto.
      * exact IH.
    + intros body ds rest E F A. destruct F as [|x y body ds Hxy F].
      { cbn in E. subst rest. cbn in A. apply IsSpace_nblank in Es. contradiction. }
      cbn in E. injection E as <- E. apply (base58_digit_spec c y Hc) in Hxy. congruence.
Qed.

Lemma decode_core psz : is_bytes psz ->
  match decode_loop psz (repeat 0 (N.to_nat (nlen psz * 733 / 1000 + 1))) 0 with
  | Ret (r, i, rest) => exists body ds, psz = body ++ rest /\ Forall2 (digit_in base58_alphabet) body ds /\ at_blank rest /\
      let out := skip_zeroes (rev (firstn i r)) in
      is_bytes out /\ no_leading_zero out /\ radix 256 out = radix 58 ds
  | Throw => forall body ds rest, psz = body ++ rest -> Forall2 (digit_in base58_alphabet) body ds -> at_blank rest -> False
  | Fault => False
  end.
Proof.
  intros H. set (size := N.to_nat (nlen psz * 733 / 1000 + 1)).
  assert (B0 : buffer 256 (repeat 0 size) 0) by (apply buffer_start; lia).
  assert (S0 : (le_val 256 (repeat 0 size) + 1) * 58 ^ N.of_nat (length psz) <= 256 ^ N.of_nat (length (repeat 0 size))).
  { rewrite le_val_start, repeat_length. subst size. rewrite N2Nat.id. change (0 + 1) with 1. rewrite N.mul_1_l.
    unfold nlen. apply decode_size. }
  pose proof (decode_loop_spec psz H _ _ B0 S0) as Q.
  destruct (decode_loop psz (repeat 0 size) 0) as [[[r i] rest]| |]; auto.
  destruct Q as (body & ds & E & F & A & B & V). exists body, ds. split; [exact E|]. split; [exact F|]. split; [exact A|].
  cbn zeta. destruct (buffer_out 256 r i B) as (D & Z & R). split; [exact D|]. split; [exact Z|].
  rewrite R, V, le_val_start. reflexivity.
Qed.

Lemma digit_in_fun c d d' : digit_in base58_alphabet c d -> digit_in base58_alphabet c d' -> d = d'.
Proof.
  intros H H'. destruct (digit_in_facts _ _ H) as [Hc _].
  apply (base58_digit_spec c d Hc) in H. apply (base58_digit_spec c d' Hc) in H'. congruence.
Qed.

Lemma split_unique body body' ds ds' rest rest' :
  Forall2 (digit_in base58_alphabet) body ds -> Forall2 (digit_in base58_alphabet) body' ds' ->
  at_blank rest -> at_blank rest' -> body ++ rest = body' ++ rest' -> body = body' /\ ds = ds' /\ rest = rest'.
Proof.
  intros F. revert body' ds'. induction F as [|c d body ds Hc F IH]; intros body' ds' F' A A' E.
  - destruct F' as [|c' d' body' ds' Hc' F']; [auto|]. cbn in E. subst rest. cbn in A.
    destruct (digit_in_facts _ _ Hc') as (_ & _ & H & _). contradiction.
  - destruct F' as [|c' d' body' ds' Hc' F'].
    + cbn in E. subst rest'. cbn in A'. destruct (digit_in_facts _ _ Hc) as (_ & _ & H & _). contradiction.
    + cbn in E. injection E as <- E. destruct (IH _ _ F' A A' E) as (-> & -> & ->).
      rewrite (digit_in_fun _ _ _ Hc Hc'). auto.
Qed.

Lemma blanks_at s : blanks s -> at_blank s.
Proof. destruct 1; [exact Logic.I|assumption]. Qed.

Lemma skip_spaces_nil s : skip_spaces s = [] <-> blanks s.
Proof.
  split; intros H.
  - destruct (skip_spaces_spec s) as (lead & E & B & _). rewrite H, app_nil_r in E. congruence.
  - rewrite <- (app_nil_r s). apply skip_spaces_app; [exact H|exact Logic.I].
Qed.

(** the part of Decode after the leading characters *)
Definition decode_tail (zeroes : nat) (psz : bytes) : outcome bytes :=
  let size := nlen psz * 733 / 1000 + 1 in
  let* p := decode_loop psz (repeat 0 (N.to_nat size)) 0 in
  let '(b256, length, psz) := p in
  match skip_spaces psz with
  | _ :: _ => Throw
  | [] => Ret (repeat 0 zeroes ++ skip_zeroes (rev (firstn length b256)))
  end.

Lemma decode_tail_spec z psz : is_bytes psz ->
  (forall d, decode_tail z psz = Ret d <->
     exists body trail ds out, psz = body ++ trail /\ Forall2 (digit_in base58_alphabet) body ds /\ blanks trail /\
       d = repeat 0 z ++ out /\ is_bytes out /\ no_leading_zero out /\ radix 58 ds = radix 256 out) /\
  decode_tail z psz <> Fault.
Proof.
  intros H. unfold decode_tail. cbn zeta. pose proof (decode_core psz H) as Q.
  destruct (decode_loop psz (repeat 0 (N.to_nat (nlen psz * 733 / 1000 + 1))) 0) as [[[r i] rest]| |]; cbn [obind].
  - destruct Q as (body & ds & E & F & A & O1 & O2 & O3). remember (skip_zeroes (rev (firstn i r))) as out.
    destruct (skip_spaces rest) as [|c tl] eqn:Es.
    + split; [|discriminate]. apply skip_spaces_nil in Es. intros d. split.
      * intros Ed. apply (f_equal (fun o => match o with Ret x => x | _ => d end)) in Ed. cbn beta iota in Ed.
        exists body, rest, ds, out. repeat split; auto.
      * intros (body' & trail' & ds' & out' & E' & F' & B' & -> & O1' & O2' & O3'). f_equal. f_equal.
        rewrite E in E'. destruct (split_unique _ _ _ _ _ _ F F' A (blanks_at _ B') E') as (_ & -> & _).
        apply radix_inj with 256; auto; [lia|congruence].
    + split; [|discriminate]. intros d. split; [discriminate|].
      intros (body' & trail' & ds' & out' & E' & F' & B' & _). exfalso.
      rewrite E in E'. destruct (split_unique _ _ _ _ _ _ F F' A (blanks_at _ B') E') as (_ & _ & ->).
      apply skip_spaces_nil in B'. congruence.
  - split; [|discriminate]. intros d. split; [discriminate|].
    intros (body' & trail' & ds' & out' & E' & F' & B' & _). exfalso. eapply Q; eauto. apply blanks_at. exact B'.
  - contradiction.
Qed.

Lemma c_str_id s : ~ In 0 s -> c_str s = s.
Proof.
  induction s as [|c s IH]; intros H; [reflexivity|]. cbn [c_str].
  destruct (N.eqb_spec c 0) as [->|_]; [exfalso; apply H; left; reflexivity|].
  f_equal. apply IH. intros Hi. apply H. right. exact Hi.
Qed.

Lemma skip_spaces_mid lead m trail : blanks lead -> blanks trail -> Forall (fun c => ~ blank c) m ->
  exists trail', blanks trail' /\ skip_spaces (lead ++ m ++ trail) = m ++ trail'.
Proof.
  intros B B' Hm. destruct Hm as [|c m Hc Hm].
  - exists []. split; [constructor|]. cbn. apply skip_spaces_nil. apply Forall_app; auto.
  - exists trail. split; [exact B'|]. apply skip_spaces_app; [exact B|exact Hc].
Qed.

Lemma digits_not_blank body ds : Forall2 (digit_in base58_alphabet) body ds -> Forall (fun c => ~ blank c) body.
Proof. induction 1 as [|c d body ds H F IH]; constructor; auto. destruct (digit_in_facts _ _ H) as (_ & _ & ? & _). assumption. Qed.

Lemma skip_spaces_bytes s : is_bytes s -> is_bytes (skip_spaces s).
Proof. intros H. destruct (skip_spaces_spec s) as (lead & E & _). rewrite E in H. apply Forall_app in H. tauto. Qed.

Lemma decode_true_spec s : is_bytes s -> ~ In 0 s ->
  (forall d, Decode_ s true = Ret d <-> base58_text s d) /\ Decode_ s true <> Fault.
Proof.
  intros H H0. unfold Decode_. rewrite (c_str_id s H0).
  destruct (count_leading 49 (skip_spaces s)) as [z psz] eqn:Ec.
  destruct (count_leading_spec _ _ _ _ Ec) as [Ep Hp].
  destruct (skip_spaces_spec s) as (lead & Es & Bl & _).
  assert (Hb : is_bytes psz).
  { pose proof (skip_spaces_bytes s H) as Q. rewrite Ep in Q. apply Forall_app in Q. tauto. }
  fold (decode_tail z psz).
  destruct (decode_tail_spec z psz Hb) as [Q1 Q2]. split; [|exact Q2].
  intros d. rewrite Q1. split.
  - intros (body & trail & ds & out & E & F & Bt & Ed & O1 & O2 & O3).
    exists lead, z, body, trail, ds, out. rewrite Es, Ep, E. repeat split; auto.
    subst psz. destruct F as [|c x body ds Hc F]; [exact Logic.I|]. cbn in Hp |- *. intros ->.
    destruct (digit_in_facts _ _ Hc) as (_ & _ & _ & _ & Hi). apply Hp. apply Hi. reflexivity.
  - intros (lead' & z' & body & trail & ds & out & E & Bl' & Bt & F & Nz & Ed & O1 & O2 & O3).
    assert (Hm : Forall (fun c => ~ blank c) (repeat 49 z' ++ body)).
    { apply Forall_app; split; [|eapply digits_not_blank; eauto].
      apply Forall_forall. intros x Hx. apply repeat_spec in Hx. subst. unfold blank. lia. }
    destruct (skip_spaces_mid lead' (repeat 49 z' ++ body) trail Bl' Bt Hm) as (trail' & Bt' & Esk).
    rewrite <- app_assoc in Esk. rewrite <- E in Esk. rewrite Esk in Ec. rewrite <- app_assoc in Ec.
    rewrite count_leading_app in Ec.
    + injection Ec as <- <-. exists body, trail', ds, out. repeat split; auto.
    + destruct F as [|c x body ds Hc F]; cbn.
      * destruct Bt' as [|c trail' Hc]; [exact Logic.I|]. unfold blank in Hc. lia.
      * cbn in Nz. intros ->. destruct (digit_in_facts _ _ Hc) as (_ & _ & _ & _ & Hi). apply Nz, Hi. reflexivity.
Qed.

Lemma decode_false_spec s : is_bytes s -> ~ In 0 s ->
  (forall d, Decode_ s false = Ret d <-> base58_number s d) /\ Decode_ s false <> Fault.
Proof.
  intros H H0. unfold Decode_. rewrite (c_str_id s H0).
  destruct (skip_spaces_spec s) as (lead & Es & Bl & _).
  pose proof (skip_spaces_bytes s H) as Hb.
  fold (decode_tail 0 (skip_spaces s)).
  destruct (decode_tail_spec 0 (skip_spaces s) Hb) as [Q1 Q2]. split; [|exact Q2].
  intros d. rewrite Q1. split.
  - intros (body & trail & ds & out & E & F & Bt & Ed & O1 & O2 & O3). cbn in Ed. subst d.
    exists lead, body, trail, ds. rewrite Es, E. repeat split; auto.
  - intros (lead' & body & trail & ds & E & Bl' & Bt & F & O1 & O2 & O3).
    destruct (skip_spaces_mid lead' body trail Bl' Bt (digits_not_blank _ _ F)) as (trail' & Bt' & Esk).
    rewrite <- E in Esk. rewrite Esk. exists body, trail', ds, d. repeat split; auto.
Qed.

(* ------------------------------------------------------------------ round trips *)
Lemma chars_digits ds : digits 58 ds -> Forall2 (digit_in base58_alphabet) (map b58char ds) ds.
Proof. induction 1 as [|d ds Hd H IH]; cbn; constructor; auto. apply digit_in_char. exact Hd. Qed.

Definition text_char (c : N) : Prop := c < 256 /\ c <> 0 /\ ~ blank c /\ c <> 46.
Lemma chars_text ds : digits 58 ds -> Forall text_char (map b58char ds).
Proof.
  induction 1 as [|d ds Hd H IH]; cbn; constructor; auto.
  destruct (digit_in_facts _ _ (digit_in_char d Hd)) as (A & B & C & D & _). repeat split; auto.
Qed.
Lemma ones_text z : Forall text_char (repeat 49 z).
Proof. apply Forall_forall. intros x Hx. apply repeat_spec in Hx. subst. unfold text_char, blank. lia. Qed.
Lemma text_bytes s : Forall text_char s -> is_bytes s.
Proof. apply Forall_impl. intros c H. apply H. Qed.
Lemma text_no_nul s : Forall text_char s -> ~ In 0 s.
Proof. intros H Hi. rewrite Forall_forall in H. destruct (H 0 Hi) as (_ & Q & _). congruence. Qed.

Lemma encode_true_text data : is_bytes data ->
  exists s, Encode_ data true = Ret s /\ base58_text s data /\ Forall text_char s.
Proof.
  intros H. destruct (encode_true_spec data H) as (z & rest & ds & E & Hr & Nr & Dd & Nd & R & Ee).
  exists (repeat 49 z ++ map b58char ds). split; [exact Ee|]. split.
  - exists [], z, (map b58char ds), [], ds, rest. rewrite app_nil_r. cbn [app].
    repeat split; auto; try constructor. apply chars_digits. exact Dd.
  - apply Forall_app; split; [apply ones_text|apply chars_text; exact Dd].
Qed.

Lemma encode_false_text data : is_bytes data ->
  exists s, Encode_ data false = Ret s /\ base58_number s (skip_zeroes data) /\ Forall text_char s.
Proof.
  intros H. destruct (encode_false_spec data H) as (ds & Dd & Nd & R & Ee).
  exists (map b58char ds). split; [exact Ee|]. split; [|apply chars_text; exact Dd].
  exists [], (map b58char ds), [], ds. rewrite app_nil_r. cbn [app]. repeat split; auto; try constructor.
  - apply chars_digits. exact Dd.
  - apply digits_skip_zeroes. exact H.
  - destruct (skip_zeroes_split data) as (n & _ & Q). exact Q.
  - rewrite radix_skip_zeroes. exact R.
Qed.

Lemma base58_roundtrip data : is_bytes data ->
  exists s, Base58_Encode data = Ret s /\ Base58_Decode s = Ret data.
Proof.
  intros H. destruct (encode_true_text data H) as (s & E & T & C). exists s. split; [exact E|].
  apply (decode_true_spec s (text_bytes s C) (text_no_nul s C)). exact T.
Qed.

Lemma simple_roundtrip data : is_bytes data ->
  exists s, Encode_ data false = Ret s /\ Decode_ s false = Ret (skip_zeroes data) /\ Forall text_char s.
Proof.
  intros H. destruct (encode_false_text data H) as (s & E & T & C). exists s. split; [exact E|]. split; [|exact C].
  apply (decode_false_spec s (text_bytes s C) (text_no_nul s C)). exact T.
Qed.
