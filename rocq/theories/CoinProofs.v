(** Proofs about coin selection (C36). *)
From Coq Require Import Permutation Sorted.
From Verif Require Import Base Bytes FileModel ConsensusModel WalletModel WalletSpec.
Local Open Scope N_scope.

Lemma total_cons c l : total (c :: l) = c_amount c + total l.
Proof. reflexivity. Qed.
Lemma total_nil : total [] = 0.
Proof. reflexivity. Qed.
Lemma total_app a b : total (a ++ b) = total a + total b.
Proof. induction a as [|c a IH]; cbn [app]; rewrite ?total_cons, ?total_nil; lia. Qed.
Lemma total_perm a b : Permutation a b -> total a = total b.
Proof. induction 1; rewrite ?total_cons; lia. Qed.
Lemma total_rev l : total (rev l) = total l.
Proof. apply total_perm. symmetry. apply Permutation_rev. Qed.

Lemma sum64_from cs : forall s, fold_left (fun s c => add64 s (c_amount c)) cs s mod W64 = (s + total cs) mod W64.
Proof.
  induction cs as [|c cs IH]; intros s; cbn [fold_left]; rewrite ?total_nil, ?total_cons; [f_equal; lia|].
  rewrite IH. unfold add64. rewrite N.add_mod_idemp_l by lia. f_equal. lia.
Qed.
Lemma sum64_lt cs : sum64 cs < W64.
Proof.
  unfold sum64. assert (G : forall s, s < W64 -> fold_left (fun s c => add64 s (c_amount c)) cs s < W64).
  { induction cs as [|c cs IH]; intros s H; cbn [fold_left]; auto. apply IH. unfold add64. apply N.mod_lt. lia. }
  apply G. lia.
Qed.
Lemma sum64_mod cs : sum64 cs = total cs mod W64.
Proof. rewrite <- (N.mod_small (sum64 cs) W64) by apply sum64_lt. unfold sum64. rewrite sum64_from. f_equal. Qed.
Lemma sum64_exact cs : total cs < W64 -> sum64 cs = total cs.
Proof. intros H. rewrite sum64_mod. apply N.mod_small. exact H. Qed.

Lemma fee_mono fb a b o k : (a <= b)%nat -> fee_of fb a o k <= fee_of fb b o k.
Proof. intros H. unfold fee_of. apply N.mul_le_mono_l. lia. Qed.
Lemma fee_exact fb n o k : fee_of fb n o k < W64 -> N.of_nat n + 21 * o + 3 * k < W64 ->
  CalculateFee fb (N.of_nat n) o k = fee_of fb n o k.
Proof.
  unfold CalculateFee, CalculateWeightV5, fee_of, INPUT_WEIGHT, OUTPUT_WEIGHT, KERNEL_WEIGHT. intros H L.
  rewrite (mul64_small _ 1), (mul64_small o), (mul64_small k) by lia.
  rewrite (add64_small (N.of_nat n * 1)) by lia. rewrite add64_small by lia.
  replace (N.of_nat n * 1 + o * 21 + k * 3) with (N.of_nat n + 21 * o + 3 * k) by lia.
  apply mul64_small. exact H.
Qed.

Section Take.
Variables amount fb o k : N.
(** the loop, starting from some coins already taken *)
Lemma take_spec : forall coins sel found,
  no_overflow (sel ++ coins) amount fb o k -> found = total sel ->
  match take_coins amount fb o k coins sel found with
  | Ret r => exists a b, coins = a ++ b /\ a <> [] /\ r = sel ++ a /\ covers amount fb o k r
  | Throw => forall a b, coins = a ++ b -> a <> [] -> ~ covers amount fb o k (sel ++ a)
  | Fault => False
  end.
Proof.
  intros coins. induction coins as [|c coins IH]; intros sel found NO E; cbn [take_coins].
  - intros a b H N. destruct a; [congruence|discriminate].
  - destruct NO as (T & F & L).
    assert (EE : (sel ++ [c]) ++ coins = sel ++ c :: coins) by (rewrite <- app_assoc; reflexivity).
    assert (T1 : total (sel ++ [c]) = total sel + c_amount c) by (rewrite total_app; rewrite total_cons, total_nil; lia).
    assert (T2 : total (sel ++ c :: coins) = total (sel ++ [c]) + total coins) by (rewrite <- EE; apply total_app).
    assert (LE : (length (sel ++ [c]) <= length (sel ++ c :: coins))%nat) by (rewrite !app_length; cbn [length]; lia).
    pose proof (fee_mono fb _ _ o k LE) as M.
    rewrite (add64_small found) by lia.
    unfold nlen. rewrite fee_exact by lia. rewrite (add64_small amount) by lia.
    destruct (amount + fee_of fb (length (sel ++ [c])) o k <=? found + c_amount c) eqn:Q.
    + exists [c], coins. repeat split; [discriminate|]. unfold covers. rewrite T1. lia.
    + specialize (IH (sel ++ [c]) (found + c_amount c)).
      rewrite EE in IH. specialize (IH (conj T (conj F L)) ltac:(lia)).
      destruct (take_coins amount fb o k coins (sel ++ [c]) (found + c_amount c)) as [r| |]; [| |exact IH].
      * destruct IH as (a & b & -> & Na & -> & C). exists (c :: a), b. repeat split; [discriminate| |exact C].
        rewrite <- app_assoc. reflexivity.
      * intros a b H Na. destruct a as [|x a]; [congruence|]. injection H as <- ->.
        destruct a as [|y a].
        { unfold covers. rewrite T1. lia. }
        specialize (IH (y :: a) b eq_refl). rewrite <- app_assoc in IH. apply IH. discriminate.
Qed.
(** whatever happens, the result is made of coins in order *)
Lemma take_prefix coins : forall sel found r,
  take_coins amount fb o k coins sel found = Ret r -> exists a b, coins = a ++ b /\ r = sel ++ a.
Proof.
  induction coins as [|c coins IH]; intros sel found r; cbn [take_coins]; [discriminate|].
  destruct (_ <=? _).
  - intros [= <-]. exists [c], coins. auto.
  - intros H. apply IH in H. destruct H as (a & b & -> & ->). exists (c :: a), b.
    rewrite <- app_assoc. auto.
Qed.
Lemma take_no_fault coins : forall sel found, take_coins amount fb o k coins sel found <> Fault.
Proof. induction coins as [|c coins IH]; intros; cbn [take_coins]; [discriminate|]. destruct (_ <=? _); [discriminate|apply IH]. Qed.
End Take.

Lemma no_overflow_perm a b x fb o k : Permutation a b -> no_overflow b x fb o k -> no_overflow a x fb o k.
Proof. intros P (A & B & C). unfold no_overflow. rewrite (total_perm _ _ P), (Permutation_length P). auto. Qed.

Lemma rev_sort_perm sort l : sorts sort -> Permutation (rev (sort (rev l))) l.
Proof. intros Ss. destruct (Ss (rev l)) as [P _]. rewrite <- Permutation_rev, P, <- Permutation_rev. reflexivity. Qed.

(** *** the k largest *)
Lemma ss_app_l {A} (R : A -> A -> Prop) a b : StronglySorted R (a ++ b) -> StronglySorted R a.
Proof. induction a as [|x a IH]; cbn; intros H; constructor; inversion H; subst; auto. apply Forall_app in H3. tauto. Qed.
Lemma ss_snoc {A} (R : A -> A -> Prop) l x : StronglySorted R l -> Forall (fun y => R y x) l -> StronglySorted R (l ++ [x]).
Proof.
  induction l as [|y l IH]; cbn; intros H F; [repeat constructor|]. inversion H; subst. inversion F; subst.
  constructor; auto. apply Forall_app. auto.
Qed.
Lemma ss_rev {A} (R : A -> A -> Prop) l : StronglySorted R l -> StronglySorted (fun a b => R b a) (rev l).
Proof.
  induction 1; cbn; [constructor|]. apply ss_snoc; auto. apply Forall_rev. exact H0.
Qed.

(** among lists of a given length drawn from a descending list, the prefix has the largest total *)
Lemma top_total D : StronglySorted (fun a b => c_amount b <= c_amount a) D ->
  forall sel rest, Permutation (sel ++ rest) D -> total sel <= total (firstn (length sel) D).
Proof.
  induction 1 as [|d D SD IH FD]; intros sel rest P.
  - apply Permutation_sym, Permutation_nil in P. destruct sel; [cbn; lia|discriminate].
  - destruct sel as [|x sel]; [cbn; lia|].
    assert (I : In d ((x :: sel) ++ rest)) by (rewrite P; left; reflexivity).
    apply in_app_or in I. destruct I as [I|I].
    + apply in_split in I. destruct I as (s1 & s2 & E). rewrite E in *.
      assert (P' : Permutation ((s1 ++ s2) ++ rest) D).
      { apply (Permutation_cons_inv (a:=d)). rewrite <- P. rewrite <- !app_assoc. cbn [app]. apply Permutation_middle. }
      apply IH in P'. rewrite app_length. cbn [length]. rewrite Nat.add_succ_r. cbn [firstn].
      rewrite app_length in P'. rewrite total_app. rewrite total_app in P'. rewrite !total_cons. lia.
    + apply in_split in I. destruct I as (r1 & r2 & E). subst rest.
      assert (P' : Permutation (sel ++ (x :: r1 ++ r2)) D).
      { apply (Permutation_cons_inv (a:=d)). rewrite <- P. cbn [app].
        rewrite <- Permutation_middle. rewrite (app_assoc sel r1 (d :: r2)). rewrite perm_swap.
        rewrite <- Permutation_middle. rewrite <- app_assoc. rewrite perm_swap. reflexivity. }
      assert (X : In x D) by (rewrite <- P'; apply in_or_app; right; left; reflexivity).
      rewrite Forall_forall in FD. apply FD in X.
      apply IH in P'. cbn [length firstn]. rewrite !total_cons. lia.
Qed.

(** *** ascending lists are determined by their amounts *)
Lemma sorted_amounts_unique a : StronglySorted (fun x y : N => x <= y) a ->
  forall b, StronglySorted (fun x y : N => x <= y) b -> Permutation a b -> a = b.
Proof.
  induction 1 as [|x a SA IH FA]; intros b SB P.
  - apply Permutation_nil in P. congruence.
  - destruct b as [|y b]; [apply Permutation_sym, Permutation_nil in P; discriminate|].
    inversion SB; subst. rewrite Forall_forall in FA, H2.
    assert (x = y).
    { assert (Iy : In y (x :: a)) by (rewrite P; left; reflexivity).
      assert (Ix : In x (y :: b)) by (rewrite <- P; left; reflexivity).
      destruct Iy as [->|Iy]; [reflexivity|]. destruct Ix as [->|Ix]; [reflexivity|].
      apply FA in Iy. apply H2 in Ix. lia. }
    subst y. f_equal. apply IH; auto. apply Permutation_cons_inv in P. exact P.
Qed.
Lemma ss_map {A B} (f : A -> B) (R : B -> B -> Prop) l : StronglySorted (fun x y => R (f x) (f y)) l -> StronglySorted R (map f l).
Proof. induction 1; cbn; constructor; auto. rewrite Forall_map. exact H0. Qed.
Lemma ss_app {A} (R : A -> A -> Prop) a b : StronglySorted R a -> StronglySorted R b -> (forall x y, In x a -> In y b -> R x y) ->
  StronglySorted R (a ++ b).
Proof.
  induction 1 as [|x a SA IH FA]; intros SB H; cbn; auto. constructor.
  - apply IH; auto. intros u v Hu Hv. apply H; [right; exact Hu|exact Hv].
  - apply Forall_app. split; auto. apply Forall_forall. intros y Hy. apply H; [left; reflexivity|exact Hy].
Qed.
Lemma total_amounts l : total l = fold_right N.add 0 (map c_amount l).
Proof. induction l as [|c l IH]; [reflexivity|]. rewrite total_cons, IH. reflexivity. Qed.

Lemma smallest_total sort coins sel : sorts sort -> smallest_of sel coins ->
  total sel = total (firstn (length sel) (sort coins)).
Proof.
  intros Ss (rest & P & LT).
  destruct (Ss coins) as [P0 S0]. destruct (Ss sel) as [P1 S1]. destruct (Ss rest) as [P2 S2].
  assert (E : map c_amount (sort coins) = map c_amount (sort sel ++ sort rest)).
  { apply sorted_amounts_unique.
    - apply ss_map. exact S0.
    - apply ss_map. apply ss_app; auto. intros x y X Y. apply LT; [rewrite <- P1; exact X|rewrite <- P2; exact Y].
    - apply Permutation_map. rewrite P0, <- P, P1, P2. reflexivity. }
  rewrite !total_amounts. rewrite <- firstn_map, E, map_app.
  rewrite firstn_app. rewrite map_length, (Permutation_length P1), Nat.sub_diag. cbn [firstn]. rewrite app_nil_r.
  rewrite firstn_all2 by (rewrite map_length, (Permutation_length P1); lia).
  rewrite <- !total_amounts. symmetry. apply total_perm. exact P1.
Qed.

Section Select.
Variable sort : list OutputDataEntity -> list OutputDataEntity.
Hypothesis Ss : sorts sort.
Variables (amount fb o k : N) (coins : list OutputDataEntity) (inputs : list bytes).

Lemma filter_chosen f : chosen_from (filter f coins) coins.
Proof.
  exists (filter (fun c => negb (f c)) coins). induction coins as [|c l IH]; cbn [filter]; [constructor|].
  destruct (f c); cbn [negb].
  - cbn [app]. constructor. exact IH.
  - rewrite <- Permutation_middle. constructor. exact IH.
Qed.

Lemma select_chosen st sel : SelectCoinsToSpend sort coins amount fb st inputs o k = Ret sel -> chosen_from sel coins.
Proof.
  destruct st; cbn [SelectCoinsToSpend]; intros H.
  - apply take_prefix in H. destruct H as (a & b & E & ->). exists b. cbn [app].
    rewrite <- E. apply Ss.
  - apply take_prefix in H. destruct H as (a & b & E & ->). exists b. cbn [app].
    rewrite <- E. apply rev_sort_perm. exact Ss.
  - unfold SelectUsingCustomInputs in H. destruct (_ <=? _); inversion H. apply filter_chosen.
  - unfold SelectUsingAllInputs in H. destruct (_ <? _); inversion H. exists []. rewrite app_nil_r. reflexivity.
Qed.

Lemma chosen_length sel : chosen_from sel coins -> (length sel <= length coins)%nat /\ total sel <= total coins.
Proof. intros (r & P). rewrite <- (Permutation_length P), <- (total_perm _ _ P), app_length, total_app. lia. Qed.

Lemma custom_spec : no_overflow coins amount fb o k ->
  let sel := filter (fun c => existsb (bytes_eqb (c_commitment c)) inputs) coins in
  (covers amount fb o k sel -> SelectUsingCustomInputs coins amount fb inputs o k = Ret sel) /\
  (~ covers amount fb o k sel -> SelectUsingCustomInputs coins amount fb inputs o k = Throw).
Proof.
  intros (T & F & L) sel. unfold SelectUsingCustomInputs. fold sel.
  pose proof (chosen_length sel (filter_chosen _)) as (Ln & Tn).
  pose proof (fee_mono fb _ _ o k Ln).
  unfold nlen. rewrite fee_exact by lia. rewrite add64_small by lia. rewrite sum64_exact by lia. unfold covers.
  destruct (_ <=? _) eqn:E; split; intros G; try reflexivity; lia.
Qed.

Lemma select_covers st sel : st <> ALL -> no_overflow coins amount fb o k ->
  SelectCoinsToSpend sort coins amount fb st inputs o k = Ret sel -> covers amount fb o k sel.
Proof.
  intros NA NO. destruct st; cbn [SelectCoinsToSpend]; intros H; [| | |congruence].
  - pose proof (take_spec amount fb o k (sort coins) [] 0) as Q. cbn [app] in Q.
    specialize (Q (no_overflow_perm _ _ _ _ _ _ (proj1 (Ss coins)) NO) eq_refl).
    unfold SelectUsingSmallestInputs in H. rewrite H in Q. destruct Q as (a & b & _ & _ & -> & C). exact C.
  - pose proof (take_spec amount fb o k (rev (sort (rev coins))) [] 0) as Q. cbn [app] in Q.
    specialize (Q (no_overflow_perm _ _ _ _ _ _ (rev_sort_perm sort coins Ss) NO) eq_refl).
    unfold SelectUsingFewestInputs in H. rewrite H in Q. destruct Q as (a & b & _ & _ & -> & C). exact C.
  - destruct (custom_spec NO) as [A B].
    destruct (N.le_decidable (amount + fee_of fb (length (filter (fun c => existsb (bytes_eqb (c_commitment c)) inputs) coins)) o k)
       (total (filter (fun c => existsb (bytes_eqb (c_commitment c)) inputs) coins))) as [D|D].
    + rewrite (A D) in H. injection H as <-. exact D.
    + rewrite (B D) in H. discriminate.
Qed.

Lemma fewest_complete : no_overflow coins amount fb o k ->
  SelectCoinsToSpend sort coins amount fb FEWEST_INPUTS inputs o k = Throw ->
  forall sel, sel <> [] -> chosen_from sel coins -> ~ covers amount fb o k sel.
Proof.
  intros NO H sel Ne (rest & P). cbn [SelectCoinsToSpend] in H. unfold SelectUsingFewestInputs in H.
  set (D := rev (sort (rev coins))) in *.
  pose proof (rev_sort_perm sort coins Ss) as PD. fold D in PD.
  pose proof (take_spec amount fb o k D [] 0) as Q. cbn [app] in Q.
  specialize (Q (no_overflow_perm _ _ _ _ _ _ PD NO) eq_refl). rewrite H in Q.
  assert (SD : StronglySorted (fun a b => c_amount b <= c_amount a) D) by (apply ss_rev, Ss).
  assert (PP : Permutation (sel ++ rest) D) by (rewrite P; symmetry; exact PD).
  pose proof (top_total D SD sel rest PP) as T.
  specialize (Q (firstn (length sel) D) (skipn (length sel) D) (eq_sym (firstn_skipn _ _))).
  assert (LL : length (firstn (length sel) D) = length sel).
  { apply firstn_length_le. rewrite <- (Permutation_length PP), app_length. lia. }
  unfold covers in *. rewrite LL in Q. intros C. apply Q; [|lia]. destruct sel; [congruence|].
  intros E. rewrite E in LL. discriminate.
Qed.

Lemma smallest_complete : no_overflow coins amount fb o k ->
  SelectCoinsToSpend sort coins amount fb SMALLEST inputs o k = Throw ->
  forall sel, sel <> [] -> smallest_of sel coins -> ~ covers amount fb o k sel.
Proof.
  intros NO H sel Ne SM. cbn [SelectCoinsToSpend] in H. unfold SelectUsingSmallestInputs in H.
  pose proof (smallest_total sort coins sel Ss SM) as T. destruct SM as (rest & P & _).
  pose proof (take_spec amount fb o k (sort coins) [] 0) as Q. cbn [app] in Q.
  specialize (Q (no_overflow_perm _ _ _ _ _ _ (proj1 (Ss coins)) NO) eq_refl). rewrite H in Q.
  specialize (Q (firstn (length sel) (sort coins)) (skipn (length sel) (sort coins)) (eq_sym (firstn_skipn _ _))).
  assert (LL : length (firstn (length sel) (sort coins)) = length sel).
  { apply firstn_length_le. rewrite (Permutation_length (proj1 (Ss coins))), <- (Permutation_length P), app_length. lia. }
  unfold covers in *. rewrite LL in Q. intros C. apply Q; [|lia]. destruct sel; [congruence|].
  intros E. rewrite E in LL. discriminate.
Qed.
(** the coins taken are the smallest *)
Lemma smallest_selected sel : SelectCoinsToSpend sort coins amount fb SMALLEST inputs o k = Ret sel -> smallest_of sel coins.
Proof.
  cbn [SelectCoinsToSpend]. intros H. apply take_prefix in H. destruct H as (a & b & E & ->). cbn [app].
  exists b. destruct (Ss coins) as [P0 S0]. split; [rewrite <- E; exact P0|]. rewrite E in S0.
  intros x y X Y. clear - S0 X Y. induction a as [|z a IH]; [destruct X|]. cbn in S0. inversion S0; subst.
  destruct X as [->|X]; auto. rewrite Forall_forall in H2. apply H2. apply in_or_app. right. exact Y.
Qed.
(** no selection with fewer coins would do *)
Lemma fewest_minimal sel : no_overflow coins amount fb o k ->
  SelectCoinsToSpend sort coins amount fb FEWEST_INPUTS inputs o k = Ret sel ->
  forall sel', sel' <> [] -> chosen_from sel' coins -> covers amount fb o k sel' -> (length sel <= length sel')%nat.
Proof.
  intros NO H sel' Ne (rest & P) C. cbn [SelectCoinsToSpend] in H. unfold SelectUsingFewestInputs in H.
  set (D := rev (sort (rev coins))) in *.
  pose proof (rev_sort_perm sort coins Ss) as PD. fold D in PD.
  assert (SD : StronglySorted (fun a b => c_amount b <= c_amount a) D) by (apply ss_rev, Ss).
  assert (PP : Permutation (sel' ++ rest) D) by (rewrite P; symmetry; exact PD).
  pose proof (top_total D SD sel' rest PP) as T.
  assert (LL : length (firstn (length sel') D) = length sel').
  { apply firstn_length_le. rewrite <- (Permutation_length PP), app_length. lia. }
  assert (C' : covers amount fb o k (firstn (length sel') D)) by (unfold covers in *; rewrite LL; lia).
  assert (Ne' : firstn (length sel') D <> []) by (destruct sel'; [congruence|]; intros E; rewrite E in LL; discriminate).
  revert C' Ne' LL. generalize (firstn_skipn (length sel') D).
  generalize (firstn (length sel') D) as pre, (skipn (length sel') D) as suf. intros pre suf ED C' Ne' <-.
  assert (NOD : no_overflow D amount fb o k) by (apply (no_overflow_perm _ _ _ _ _ _ PD NO)).
  clear - H ED C' Ne' NOD.
  (* the loop stops at the latest at [pre] *)
  assert (G : forall pre seln found r, pre <> [] -> no_overflow (seln ++ pre ++ suf) amount fb o k -> found = total seln ->
    covers amount fb o k (seln ++ pre) ->
    take_coins amount fb o k (pre ++ suf) seln found = Ret r -> (length r <= length seln + length pre)%nat).
  { clear. induction pre as [|c pre IH]; intros seln found r Ne NO E C H; [congruence|].
    cbn [app take_coins] in H. destruct NO as (T & F & L).
    assert (EE : (seln ++ [c]) ++ pre ++ suf = seln ++ (c :: pre) ++ suf) by (rewrite <- app_assoc; reflexivity).
    assert (T1 : total (seln ++ [c]) = total seln + c_amount c) by (rewrite total_app; rewrite total_cons, total_nil; lia).
    assert (T2 : total (seln ++ (c :: pre) ++ suf) = total (seln ++ [c]) + total (pre ++ suf)) by (rewrite <- EE; apply total_app).
    assert (LE : (length (seln ++ [c]) <= length (seln ++ (c :: pre) ++ suf))%nat) by (rewrite !app_length; cbn [length]; lia).
    pose proof (fee_mono fb _ _ o k LE) as M.
    rewrite (add64_small found) in H by lia. unfold nlen in H. rewrite fee_exact in H by lia. rewrite (add64_small amount) in H by lia.
    destruct (_ <=? _) eqn:Q.
    - injection H as <-. rewrite app_length. cbn [length]. lia.
    - destruct pre as [|y pre].
      + exfalso. unfold covers in C. rewrite T1 in C. apply N.leb_gt in Q. lia.
      + apply IH in H; [|discriminate| |lia|].
        * rewrite app_length in H. cbn [length] in *. lia.
        * rewrite EE. repeat split; assumption.
        * rewrite <- app_assoc. exact C. }
  rewrite <- ED in H. apply (G pre [] 0) in H; auto. cbn [app]. rewrite ED. exact NOD.
Qed.
End Select.

(** one function that sorts *)
Fixpoint insert_coin (c : OutputDataEntity) (l : list OutputDataEntity) : list OutputDataEntity :=
  match l with [] => [c] | x :: r => if c_amount c <=? c_amount x then c :: l else x :: insert_coin c r end.
Definition sort_coins (l : list OutputDataEntity) : list OutputDataEntity := fold_right insert_coin [] l.
Lemma insert_perm c l : Permutation (insert_coin c l) (c :: l).
Proof. induction l as [|x l IH]; cbn; [reflexivity|]. destruct (_ <=? _); [reflexivity|]. rewrite IH. apply perm_swap. Qed.
Lemma sort_coins_sorts : sorts sort_coins.
Proof.
  intros l. induction l as [|c l (P & Q)]; cbn; [repeat constructor|]. split.
  - rewrite insert_perm. constructor. exact P.
  - revert Q. change (fold_right insert_coin [] l) with (sort_coins l). generalize (sort_coins l). clear. intros l. induction l as [|x l IH]; cbn; intros Q; [repeat constructor|].
    inversion Q; subst. destruct (N.leb_spec (c_amount c) (c_amount x)) as [L|L].
    + constructor; auto. constructor; auto. rewrite Forall_forall in *. intros y Y. apply H2 in Y. lia.
    + constructor; auto. rewrite Forall_forall in *. intros y Y. rewrite insert_perm in Y. destruct Y as [<-|Y]; [lia|auto].
Qed.
