(** Proofs about compact blocks. *)
From Coq Require Import Permutation Sorted.
From Verif Require Import Base Bytes FileModel SerialModel CodecModel CodecSpec CodecProofs ConsensusModel ValidationModel ValidationSpec ValidationProofs
  PoolModel CompactModel CompactSpec.
Local Open Scope N_scope.

(** * Lists *)
Lemma mem_eqb x l : existsb (bytes_eqb x) l = true <-> In x l.
Proof.
  rewrite existsb_exists. split.
  - intros (y & I & E). apply bytes_eqb_spec in E. subst y. exact I.
  - intros I. exists x. split; [exact I|apply bytes_eqb_refl].
Qed.
Lemma map_inj {A B} (f : A -> B) l x y : NoDup (map f l) -> In x l -> In y l -> f x = f y -> x = y.
Proof.
  induction l as [|a l IH]; intros N I1 I2 E; [destruct I1|]. cbn [map] in N. inversion_clear N as [|? ? N1 N2].
  destruct I1 as [<-|I1], I2 as [<-|I2]; [reflexivity| | |exact (IH N2 I1 I2 E)]; exfalso; apply N1.
  - rewrite E. apply in_map, I2.
  - rewrite <- E. apply in_map, I1.
Qed.
Lemma NoDup_map {A B} (f : A -> B) l : NoDup l -> (forall x y, In x l -> In y l -> f x = f y -> x = y) -> NoDup (map f l).
Proof.
  induction l as [|a l IH]; intros N F; cbn [map]; [constructor|]. inversion_clear N as [|? ? N1 N2]. constructor.
  - intros J. apply in_map_iff in J as (y & E & J). apply N1. rewrite (F a y (or_introl eq_refl) (or_intror J) (eq_sym E)). exact J.
  - apply IH; [exact N2|]. intros x y I1 I2. apply F; right; assumption.
Qed.
Lemma NoDup_unmap {A B} (f : A -> B) l : NoDup (map f l) -> NoDup l.
Proof. apply NoDup_map_inv. Qed.
Lemma NoDup_map_filter {A B} (f : A -> B) p l : NoDup (map f l) -> NoDup (map f (filter p l)).
Proof.
  intros N. apply NoDup_map; [apply NoDup_filter, (NoDup_map_inv _ _ N)|]. intros x y I1 I2 E. apply filter_In in I1 as (I1 & _). apply filter_In in I2 as (I2 & _).
  exact (map_inj f l x y N I1 I2 E).
Qed.

(** * What was seen before is left out *)
Lemma first_in {A} (hash : A -> bytes) l : forall seen, collision_free hash l ->
  (forall x, In x (first_of_each hash seen l) <-> In x l /\ ~ In (hash x) seen) /\ NoDup (first_of_each hash seen l).
Proof.
  induction l as [|a l IH]; intros seen C; cbn [first_of_each]; [split; [intros x; split; [intros []|intros ([] & _)]|constructor]|].
  assert (C' : collision_free hash l) by (intros x y I1 I2; apply C; right; assumption).
  destruct (existsb (bytes_eqb (hash a)) seen) eqn:E.
  - apply mem_eqb in E. destruct (IH seen C') as (A1 & A2). split; [|exact A2]. intros x. rewrite A1. split; intros (J & K); (split; [|exact K]); [right; exact J|].
    destruct J as [<-|J]; [contradiction|exact J].
  - assert (Na : ~ In (hash a) seen) by (rewrite <- mem_eqb, E; discriminate). destruct (IH (hash a :: seen) C') as (A1 & A2). split.
    + intros x. cbn [In]. rewrite A1. cbn [In]. split.
      * intros [<-|(J & K)]; [auto|]. split; [auto|]. intros K'. apply K. auto.
      * intros ([<-|J] & K); [auto|]. destruct (bytes_dec (hash a) (hash x)) as [X|X]; [left; apply C; [left; reflexivity|right; exact J|exact X]|].
        right. split; [exact J|]. intros [X'|X']; auto.
    + constructor; [|exact A2]. rewrite A1. intros (_ & K). apply K. left. reflexivity.
Qed.

(** * Sorting is determined by the elements *)
Section Sorting.
Context {A : Type} (key : A -> bytes).
Hypothesis key_bytes : forall x, length (key x) = 32%nat /\ is_bytes (key x).
Definition rank (x : A) : N := be_value (key x).
Lemma rank_inj x y : rank x = rank y -> key x = key y.
Proof.
  unfold rank. intros H. destruct (key_bytes x) as (L1 & B1). destruct (key_bytes y) as (L2 & B2).
  rewrite <- (be_bytes_be_value _ B1), <- (be_bytes_be_value _ B2). rewrite L1, L2, H. reflexivity.
Qed.
Lemma be_value_cons x l : be_value (x :: l) = x * 256 ^ N.of_nat (length l) + be_value l.
Proof.
  induction l as [|y l IH] using rev_ind; [cbn; lia|]. change (x :: l ++ [y]) with ((x :: l) ++ [y]). rewrite !be_value_app, IH, app_length. cbn [length].
  replace (N.of_nat (length l + 1)) with (N.succ (N.of_nat (length l))) by lia. rewrite N.pow_succ_r by lia. lia.
Qed.
Lemma ltb_value a : forall b, length a = length b -> is_bytes a -> is_bytes b -> bytes_ltb a b = (be_value a <? be_value b).
Proof.
  induction a as [|x a IH]; intros [|y b] L B1 B2; try discriminate; [reflexivity|]. cbn [length] in L. injection L as L.
  inversion_clear B1 as [|? ? X1 X2]. inversion_clear B2 as [|? ? Y1 Y2]. cbn [bytes_ltb]. rewrite !be_value_cons, L.
  pose proof (be_value_bound _ X2) as Ba. pose proof (be_value_bound _ Y2) as Bb. rewrite L in Ba.
  destruct (N.eqb_spec y x) as [<-|Ne].
  - rewrite (IH b L X2 Y2). clear. generalize (be_value a) (be_value b) (y * 256 ^ N.of_nat (length b)). intros u v m. destruct (N.ltb_spec u v), (N.ltb_spec (m + u) (m + v)); try reflexivity; lia.
  - set (w := 256 ^ N.of_nat (length b)) in *. destruct (N.ltb_spec x y) as [Lt|Ge].
    + symmetry. apply N.ltb_lt. assert (x * w + w <= y * w) by nia. lia.
    + symmetry. apply N.ltb_ge. assert (y * w + w <= x * w) by nia. lia.
Qed.
Lemma sorted_rank l : sorted_by key l <-> Sorted (fun a b => rank a <= rank b) l.
Proof.
  unfold sorted_by. assert (E : forall a b, bytes_ltb (key b) (key a) = false <-> rank a <= rank b).
  { intros a b. destruct (key_bytes a) as (La & Ba). destruct (key_bytes b) as (Lb & Bb). rewrite ltb_value by congruence. unfold rank. apply N.ltb_ge. }
  induction l as [|x l IH]; [split; constructor|]. split; intros S; inversion_clear S as [|? ? S1 S2]; (constructor; [apply IH, S1|]);
    (destruct l; [constructor|constructor; inversion_clear S2; apply E; assumption]).
Qed.
Lemma is_sorted_rank l : IsSorted (map rank l) = true -> Sorted (fun a b => rank a <= rank b) l.
Proof.
  induction l as [|x l IH]; intros S; [constructor|]. cbn [map] in S. apply IsSorted_cons in S as (S1 & S2). constructor; [exact (IH S1)|].
  destruct l; [constructor|]. cbn [map] in S2. constructor. exact (Forall_inv S2).
Qed.
Lemma sorted_unique l : forall l', Sorted (fun a b => rank a <= rank b) l -> Sorted (fun a b => rank a <= rank b) l' -> Permutation l l' -> collision_free key l -> l = l'.
Proof.
  assert (T : forall m, Sorted (fun a b => rank a <= rank b) m -> StronglySorted (fun a b => rank a <= rank b) m).
  { intros m. apply Sorted_StronglySorted. intros a b c. lia. }
  induction l as [|x l IH]; intros l' S1 S2 P C; [symmetry; apply Permutation_nil, P|]. destruct l' as [|y l']; [apply Permutation_sym, Permutation_nil in P; discriminate|].
  assert (E : x = y).
  { pose proof (T _ S1) as T1. pose proof (T _ S2) as T2. inversion_clear T1 as [|? ? _ F1]. inversion_clear T2 as [|? ? _ F2].
    assert (Iy : In y (x :: l)) by (apply (Permutation_in _ (Permutation_sym P)); left; reflexivity).
    assert (Ix : In x (y :: l')) by (apply (Permutation_in _ P); left; reflexivity).
    rewrite Forall_forall in F1, F2. destruct Iy as [Iy|Iy]; [exact Iy|]. destruct Ix as [Ix|Ix]; [symmetry; exact Ix|].
    pose proof (F1 y Iy). pose proof (F2 x Ix). apply C; [left; reflexivity|right; exact Iy|]. apply rank_inj. lia. }
  subst y. f_equal. apply IH.
  - inversion S1; assumption.
  - inversion S2; assumption.
  - exact (Permutation_cons_inv P).
  - intros a b I1 I2. apply C; right; assumption.
Qed.
Lemma sort_to l m : IsSorted (map rank m) = true -> NoDup m -> NoDup l -> (forall x, In x l <-> In x m) -> collision_free key m -> sort_by key l = m.
Proof.
  intros S N1 N2 E C. symmetry. apply sorted_unique.
  - apply is_sorted_rank, S.
  - apply sorted_rank, sort_sorts.
  - eapply perm_trans; [|apply sort_perm]. apply NoDup_Permutation; [exact N1|exact N2|]. intros x. rewrite E. reflexivity.
  - exact C.
Qed.
End Sorting.

(** * Finding transactions by short ids *)
Lemma id_set_in x l : In x (id_set l) <-> In x l.
Proof.
  induction l as [|a l IH]; cbn [id_set]; [reflexivity|]. destruct (existsb (bytes_eqb a) l) eqn:E.
  - apply mem_eqb in E. rewrite IH. split; [right; assumption|]. intros [<-|J]; assumption.
  - cbn [In]. rewrite IH. reflexivity.
Qed.
Lemma id_set_nodup l : NoDup (id_set l).
Proof.
  induction l as [|a l IH]; cbn [id_set]; [constructor|]. destruct (existsb (bytes_eqb a) l) eqn:E; [exact IH|]. constructor; [|exact IH].
  rewrite id_set_in, <- mem_eqb, E. discriminate.
Qed.
Lemma id_set_length l : (length (id_set l) <= length l)%nat.
Proof. induction l as [|a l IH]; cbn [id_set length]; [lia|]. destruct (existsb _ l); cbn [length]; lia. Qed.
Lemma id_set_same l : NoDup l -> id_set l = l.
Proof.
  induction l as [|a l IH]; intros N; cbn [id_set]; [reflexivity|]. inversion_clear N as [|? ? N1 N2].
  destruct (existsb (bytes_eqb a) l) eqn:E; [apply mem_eqb in E; contradiction|]. f_equal. exact (IH N2).
Qed.
Section Ids.
Variable id_of : TransactionKernel -> bytes.
Notation hits missing l := (filter (fun tk : txptr * TransactionKernel => existsb (bytes_eqb (id_of (snd tk))) missing) l).
Lemma find_all missing l : forall found, (length found + length (hits missing l) <= length missing)%nat ->
  find_short_ids id_of missing found l = found ++ map fst (hits missing l).
Proof.
  induction l as [|(t, k) l IH]; intros found L; cbn [find_short_ids filter snd]; [rewrite app_nil_r; reflexivity|]. cbn [filter snd] in L.
  destruct (existsb (bytes_eqb (id_of k)) missing) eqn:E; [|exact (IH found L)]. cbn [length map fst] in *. destruct (Nat.eqb_spec (length (found ++ [t])) (length missing)) as [X|X].
  - rewrite app_length in X. cbn [length] in X. assert (Z : hits missing l = []) by (apply length_zero_iff_nil; lia). rewrite Z. reflexivity.
  - rewrite IH by (rewrite app_length; cbn [length]; lia). rewrite <- app_assoc. reflexivity.
Qed.
Lemma hits_fit missing l : NoDup (map (fun tk => id_of (snd tk)) l) -> (length (hits missing l) <= length missing)%nat.
Proof.
  intros N. rewrite <- (map_length (fun tk => id_of (snd tk))). apply NoDup_incl_length; [apply NoDup_map_filter, N|].
  intros x J. apply in_map_iff in J as (tk & <- & J). apply filter_In in J as (_ & J). apply mem_eqb, J.
Qed.
Lemma hits_all missing l : NoDup (map (fun tk => id_of (snd tk)) l) -> NoDup missing -> incl missing (map (fun tk => id_of (snd tk)) l) -> length (hits missing l) = length missing.
Proof.
  intros N M I1. apply Nat.le_antisymm; [apply hits_fit, N|]. rewrite <- (map_length (fun tk => id_of (snd tk)) (hits _ _)). apply NoDup_incl_length; [exact M|].
  intros x J. pose proof (I1 x J) as K. apply in_map_iff in K as (tk & <- & K). apply (in_map (fun tk => id_of (snd tk))). apply filter_In. split; [exact K|]. apply mem_eqb, J.
Qed.
Lemma hits_few missing l x : NoDup (map (fun tk => id_of (snd tk)) l) -> In x missing -> ~ In x (map (fun tk => id_of (snd tk)) l) -> (length (hits missing l) < length missing)%nat.
Proof.
  intros N J K. destruct (in_split _ _ J) as (a & b & ->). rewrite app_length. cbn [length]. enough (length (hits (a ++ x :: b) l) <= length (a ++ b))%nat by (rewrite app_length in *; lia).
  rewrite <- (map_length (fun tk => id_of (snd tk))). apply NoDup_incl_length; [apply NoDup_map_filter, N|].
  intros y Y. apply in_map_iff in Y as (tk & <- & Y). apply filter_In in Y as (Y1 & Y2). apply mem_eqb in Y2. apply in_app_or in Y2 as [Y2|[Y2|Y2]]; apply in_or_app; auto.
  exfalso. apply K. rewrite Y2. apply (in_map (fun tk => id_of (snd tk))), Y1.
Qed.
End Ids.
Lemma pool_kernels_ids (id_of : TransactionKernel -> bytes) p : map (fun tk => id_of (snd tk)) (pool_kernels p) = map id_of (flat_map (fun t => b_kernels (t_body t)) (map e_tx p)).
Proof.
  unfold pool_kernels. induction p as [|e p IH]; [reflexivity|]. cbn [flat_map map]. rewrite !map_app, IH. f_equal. rewrite map_map. apply map_ext. reflexivity.
Qed.
Lemma pool_kernels_in p t k : In (t, k) (pool_kernels p) <-> exists e, In e p /\ e_ptr e = t /\ In k (b_kernels (t_body (e_tx e))).
Proof.
  unfold pool_kernels. rewrite in_flat_map. split.
  - intros (e & J & K). apply in_map_iff in K as (k' & K1 & K2). injection K1 as <- <-. eauto.
  - intros (e & J & <- & K). exists e. split; [exact J|]. apply in_map_iff. eauto.
Qed.

(** * The block is rebuilt *)
Section Rebuild.
Variable Blake2b : bytes -> bytes.
Variable SipHash24 : N -> N -> bytes -> N.
Variable VRP : list (bytes * bytes) -> bool.
Variable VKS : list bytes -> list bytes -> list bytes -> bool.
Variable AddC : list bytes -> list bytes -> outcome bytes.
Variable CT : N -> bytes.
Variable env : Environment.
Hypothesis Blake2b_bytes : forall x, length (Blake2b x) = 32%nat /\ is_bytes (Blake2b x).
Notation short nonce b := (fun k => ShortId_Create Blake2b SipHash24 (kernel_hash Blake2b k) (BlockHeader_GetHash (fb_header b)) nonce).

Lemma consistent_sorted b : VerifySelfConsistent Blake2b VRP VKS AddC CT env b = Ret tt -> VerifySorted Blake2b (fb_body b) = Ret tt.
Proof.
  unfold VerifySelfConsistent. destruct (Block_VerifyWeight env b) as [[]| |]; try discriminate. cbn [obind].
  destruct (VerifyKernelLockHeights b) as [[]| |]; try discriminate. cbn [obind]. unfold TxBody_Validate.
  destruct (VerifySorted Blake2b (fb_body b)) as [[]| |]; try discriminate. reflexivity.
Qed.
Lemma distinct_of {A} (h : A -> bytes) (eqb : A -> A -> bool) l :
  (forall x, length (h x) = 32%nat /\ is_bytes (h x)) -> (forall a, eqb a a = true) -> collision_free h l ->
  IsSorted (map (fun x => be_value (h x)) l) = true -> no_equal_neighbours eqb l = true -> NoDup l.
Proof.
  intros Hb Re C. induction l as [|a l IH]; intros S E; [constructor|]. cbn [map] in S. pose proof (IsSorted_cons _ _ S) as (S1 & S2).
  assert (E' : no_equal_neighbours eqb l = true) by (destruct l; [reflexivity|exact (proj2 (no_equal_cons _ _ _ _ E))]).
  assert (C' : collision_free h l) by (intros x y I1 I2; apply C; right; assumption). constructor; [|exact (IH C' S1 E')].
  intros J. destruct l as [|b l]; [destruct J|]. destruct (no_equal_cons _ _ _ _ E) as (Ne & _).
  assert (X : a = b); [|subst b; rewrite Re in Ne; discriminate]. destruct J as [<-|J]; [reflexivity|]. apply C; [left; reflexivity|right; left; reflexivity|].
  cbn [map] in S1. apply IsSorted_cons in S1 as (_ & S3). rewrite Forall_forall in S3. specialize (S3 _ (in_map (fun x => be_value (h x)) l a J)).
  pose proof (Forall_inv S2) as S4. cbn beta in S4. apply (rank_inj h Hb). unfold rank. lia.
Qed.

Lemma hydrated nonce b ts xs :
  VerifySelfConsistent Blake2b VRP VKS AddC CT env b = Ret tt -> NoDup (b_kernels (fb_body b)) -> made_of b ts ->
  collision_free (input_hash Blake2b) (flat_map (fun t => b_inputs (t_body t)) ts) ->
  collision_free (output_hash Blake2b) (flat_map (fun t => b_outputs (t_body t)) ts ++ b_outputs (fb_body b)) ->
  collision_free (kernel_hash Blake2b) (flat_map (fun t => b_kernels (t_body t)) ts ++ b_kernels (fb_body b)) ->
  (forall t, In t xs <-> In t ts) -> Hydrate_with Blake2b (CreateCompactBlock Blake2b SipHash24 nonce b) xs = b.
Proof.
  intros V Nk (Mi & Mo & Mk) Ci Co Ck Ex. apply consistent_sorted in V. apply VerifySorted_ok in V as (Si & So & Sk & Ei & Eo).
  assert (Sub : forall {B} (part : Transaction -> list B) x, In x (flat_map part xs) <-> exists t, In t ts /\ In x (part t)).
  { intros B part x. rewrite in_flat_map. split; intros (t & J & K); exists t; (split; [apply Ex, J|exact K]). }
  assert (Sub' : forall {B} (part : Transaction -> list B) x, In x (flat_map part ts) <-> exists t, In t ts /\ In x (part t)) by (intros; apply in_flat_map).
  set (c := CreateCompactBlock Blake2b SipHash24 nonce b).
  assert (Oc : forall o, In o (cb_outputs c) <-> In o (b_outputs (fb_body b)) /\ output_IsCoinbase o = true).
  { intros o. cbn [c CreateCompactBlock cb_outputs]. rewrite <- filter_In. split; apply Permutation_in; [apply Permutation_sym|]; apply sort_perm. }
  assert (Kc : forall k, In k (cb_kernels c) <-> In k (b_kernels (fb_body b)) /\ kernel_IsCoinbase k = true).
  { intros o. cbn [c CreateCompactBlock cb_kernels]. rewrite <- filter_In. split; apply Permutation_in; [apply Permutation_sym|]; apply sort_perm. }
  destruct (first_in (input_hash Blake2b) (flat_map (fun t => b_inputs (t_body t)) xs) []) as (Fi & Ni).
  { intros x y I1 I2. apply Ci; apply Sub', Sub; assumption. }
  destruct (first_in (output_hash Blake2b) (flat_map (fun t => b_outputs (t_body t)) xs ++ cb_outputs c) []) as (Fo & No).
  { assert (K : incl (flat_map (fun t => b_outputs (t_body t)) xs ++ cb_outputs c) (flat_map (fun t => b_outputs (t_body t)) ts ++ b_outputs (fb_body b))).
    { intros x J. apply in_app_or in J as [J|J]; apply in_or_app; [left; apply Sub', Sub, J|right; apply Oc, J]. }
    intros x y I1 I2. apply Co; apply K; assumption. }
  destruct (first_in (kernel_hash Blake2b) (flat_map (fun t => b_kernels (t_body t)) xs ++ cb_kernels c) []) as (Fk & Nk').
  { assert (K : incl (flat_map (fun t => b_kernels (t_body t)) xs ++ cb_kernels c) (flat_map (fun t => b_kernels (t_body t)) ts ++ b_kernels (fb_body b))).
    { intros x J. apply in_app_or in J as [J|J]; apply in_or_app; [left; apply Sub', Sub, J|right; apply Kc, J]. }
    intros x y I1 I2. apply Ck; apply K; assumption. }
  assert (Fi' : forall i, In i (first_of_each (input_hash Blake2b) [] (flat_map (fun t => b_inputs (t_body t)) xs)) <-> exists t, In t ts /\ In i (b_inputs (t_body t))).
  { intros i. rewrite Fi, Sub. cbn [In]. tauto. }
  assert (Fo' : forall o, In o (first_of_each (output_hash Blake2b) [] (flat_map (fun t => b_outputs (t_body t)) xs ++ cb_outputs c)) <->
     (exists t, In t ts /\ In o (b_outputs (t_body t))) \/ (In o (b_outputs (fb_body b)) /\ output_IsCoinbase o = true)).
  { intros o. rewrite Fo, in_app_iff, Sub, Oc. cbn [In]. tauto. }
  unfold Hydrate_with. set (ins := first_of_each (input_hash Blake2b) [] _) in *. set (outs := first_of_each (output_hash Blake2b) [] _) in *. set (ks := first_of_each (kernel_hash Blake2b) [] _) in *.
  destruct (PerformCutThrough ins outs) as (ins', outs') eqn:P. destruct (cut_through_kept _ _ _ _ P) as (P1 & P2).
  assert (Nd : NoDup ins' /\ NoDup outs') by (unfold PerformCutThrough in P; injection P as <- <-; split; apply NoDup_filter; assumption). destruct Nd as (Nd1 & Nd2).
  destruct b as (h, (bi, bo, bk)). cbn [fb_header fb_body b_inputs b_outputs b_kernels] in *. cbn [c CreateCompactBlock cb_header fb_header]. f_equal. unfold Body_sorted.
  assert (Sub1 : incl bi (flat_map (fun t => b_inputs (t_body t)) ts)) by (intros i J; apply Sub', (proj1 (Mi i)), J).
  assert (Cbi : collision_free (input_hash Blake2b) bi) by (intros x y I1 I2; apply Ci; apply Sub1; assumption).
  assert (Cbo : collision_free (output_hash Blake2b) bo) by (intros x y I1 I2; apply Co; apply in_or_app; right; assumption).
  assert (Cbk : collision_free (kernel_hash Blake2b) bk) by (intros x y I1 I2; apply Ck; apply in_or_app; right; assumption).
  f_equal; apply sort_to; try exact Si; try exact So; try exact Sk; try exact Nd1; try exact Nd2; try exact Nk; try exact Nk'; try assumption; try (intros; apply Blake2b_bytes).
  - apply (distinct_of (input_hash Blake2b) input_eqb); [intros; apply Blake2b_bytes| |exact Cbi|exact Si|exact Ei]. intros a. unfold input_eqb. rewrite N.eqb_refl, bytes_eqb_refl. reflexivity.
  - intros i. rewrite P1, Fi', Mi. split; intros (J & K); (split; [exact J|]); intros L; apply K.
    + destruct L as (o & L1 & L2). rewrite <- L2. apply in_map, Fo', L1.
    + apply in_map_iff in L as (o & L1 & L2). exists o. split; [apply Fo', L2|exact L1].
  - apply (distinct_of (output_hash Blake2b) (output_eqb Blake2b)); [intros; apply Blake2b_bytes| |exact Cbo|exact So|exact Eo]. intros a. apply bytes_eqb_refl.
  - intros o. rewrite P2, Fo'. split; [intros (J & K); apply Mo|intros J; apply Mo in J as (J & K)]; (split; [exact J|]); intros L; apply K.
    + destruct L as (i & L1 & L2). rewrite <- L2. apply in_map, Fi', L1.
    + apply in_map_iff in L as (i & L1 & L2). exists i. split; [apply Fi', L2|exact L1].
  - intros k. rewrite Fk, in_app_iff, Sub, Kc. split; [intros (J & _); apply Mk, J|intros J; apply Mk in J; split; [exact J|intros []]].
Qed.

Lemma rebuilt nonce b ts p :
  VerifySelfConsistent Blake2b VRP VKS AddC CT env b = Ret tt -> NoDup (b_kernels (fb_body b)) -> made_of b ts ->
  incl ts (map e_tx p) -> Forall (fun t => exists k, In k (b_kernels (t_body t)) /\ kernel_IsCoinbase k = false) ts ->
  NoDup (map (short nonce b) (flat_map (fun t => b_kernels (t_body t)) (map e_tx p))) ->
  collision_free (input_hash Blake2b) (flat_map (fun t => b_inputs (t_body t)) ts) ->
  collision_free (output_hash Blake2b) (flat_map (fun t => b_outputs (t_body t)) ts ++ b_outputs (fb_body b)) ->
  collision_free (kernel_hash Blake2b) (flat_map (fun t => b_kernels (t_body t)) ts ++ b_kernels (fb_body b)) ->
  Hydrate Blake2b SipHash24 (CreateCompactBlock Blake2b SipHash24 nonce b) p = Some b.
Proof.
  intros V Nk M It Fk Ns Ci Co Ck. set (ids := map (short nonce b) (filter (fun k => negb (kernel_IsCoinbase k)) (b_kernels (fb_body b)))).
  rewrite <- pool_kernels_ids in Ns.
  (* every kernel of the block outside the coinbase is pooled *)
  assert (Pk : forall k, In k (b_kernels (fb_body b)) -> kernel_IsCoinbase k = false -> exists t q, In t ts /\ p_tx q = t /\ In (q, k) (pool_kernels p)).
  { intros k J K. destruct M as (_ & _ & Mk). apply Mk in J as [(t & J1 & J2)|(_ & J)]; [|rewrite K in J; discriminate]. pose proof (It t J1) as I2. apply in_map_iff in I2 as (e & E & I2).
    exists t, (e_ptr e). split; [exact J1|]. split; [exact E|]. apply pool_kernels_in. exists e. split; [exact I2|]. split; [reflexivity|]. rewrite E. exact J2. }
  assert (Ii : incl ids (map (fun tk => short nonce b (snd tk)) (pool_kernels p))).
  { intros x J. apply in_map_iff in J as (k & <- & J). apply filter_In in J as (J & K). apply negb_true_iff in K. destruct (Pk k J K) as (t & q & _ & _ & L).
    apply in_map_iff. exists (q, k). split; [reflexivity|exact L]. }
  assert (Ni : NoDup ids).
  { apply NoDup_map; [apply NoDup_filter, Nk|]. intros x y Jx Jy E. apply filter_In in Jx as (Jx & Kx). apply negb_true_iff in Kx. apply filter_In in Jy as (Jy & Ky). apply negb_true_iff in Ky.
    destruct (Pk x Jx Kx) as (_ & qx & _ & _ & Lx). destruct (Pk y Jy Ky) as (_ & qy & _ & _ & Ly). pose proof (map_inj _ _ _ _ Ns Lx Ly E) as Z. injection Z as _ Z. exact Z. }
  set (shorts := cb_shortIds (CreateCompactBlock Blake2b SipHash24 nonce b)).
  assert (Ps : Permutation ids shorts) by apply sort_perm.
  assert (Nsh : NoDup shorts) by exact (Permutation_NoDup Ps Ni).
  set (found := map fst (filter (fun tk : txptr * TransactionKernel => existsb (bytes_eqb (short nonce b (snd tk))) shorts) (pool_kernels p))).
  assert (Ish : incl shorts (map (fun tk => short nonce b (snd tk)) (pool_kernels p))) by (intros x J; apply Ii, (Permutation_in _ (Permutation_sym Ps)), J).
  assert (Lf : length found = length shorts).
  { unfold found. rewrite map_length. exact (hits_all (short nonce b) shorts (pool_kernels p) Ns Nsh Ish). }
  assert (Ef : forall t, In t (map p_tx found) <-> In t ts).
  { intros t. unfold found. rewrite map_map, in_map_iff. split.
    - intros ((q & k) & E & J). cbn [fst] in E. apply filter_In in J as (J & K). cbn [snd] in K. apply mem_eqb in K. apply (Permutation_in _ (Permutation_sym Ps)) in K.
      apply in_map_iff in K as (k' & K1 & K2). apply filter_In in K2 as (K2 & K3). apply negb_true_iff in K3. destruct (Pk k' K2 K3) as (t' & q' & L1 & L2 & L3).
      pose proof (map_inj _ _ _ _ Ns L3 J K1) as Z. injection Z as -> ->. rewrite <- E, L2. exact L1.
    - intros J. rewrite Forall_forall in Fk. destruct (Fk t J) as (k & K1 & K2). assert (Kb : In k (b_kernels (fb_body b))) by (apply M; left; eauto).
      pose proof (It t J) as I2. apply in_map_iff in I2 as (e & E & I2). exists (e_ptr e, k). split; [exact E|]. apply filter_In. split.
      + apply pool_kernels_in. exists e. split; [exact I2|]. split; [reflexivity|]. rewrite E. exact K1.
      + apply mem_eqb. apply (Permutation_in _ Ps). apply (in_map (short nonce b)). apply filter_In. split; [exact Kb|]. cbn [snd]. rewrite K2. reflexivity. }
  assert (Eg : GetTransactionsByShortId Blake2b SipHash24 (BlockHeader_GetHash (fb_header b)) nonce (id_set shorts) p = found).
  { unfold GetTransactionsByShortId. rewrite id_set_same by exact Nsh. rewrite (find_all (short nonce b)) by (cbn [length Nat.add]; exact (hits_fit (short nonce b) shorts (pool_kernels p) Ns)). reflexivity. }
  clearbody found. unfold Hydrate. fold shorts. clearbody shorts. cbn [CreateCompactBlock cb_header cb_nonce]. destruct shorts as [|s0 rest].
  - destruct found as [|? ?]; [|discriminate Lf]. f_equal. exact (hydrated nonce b ts [] V Nk M Ci Co Ck Ef).
  - rewrite Eg, Lf, Nat.eqb_refl. f_equal. exact (hydrated nonce b ts _ V Nk M Ci Co Ck Ef).
Qed.
End Rebuild.
