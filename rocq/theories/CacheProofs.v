From Verif Require Import Base Bytes CacheModel CacheSpec.
Local Open Scope N_scope.

Section Proofs.
Variables (K V : Type) (eqb : K -> K -> bool).
Hypothesis eqb_spec : forall a b, eqb a b = true <-> a = b.

Lemma eqb_refl k : eqb k k = true.
Proof. apply eqb_spec. reflexivity. Qed.
Lemma eqb_dec (a b : K) : {a = b} + {a <> b}.
Proof. destruct (eqb a b) eqn:E; [left; apply eqb_spec, E|right; intros H; apply eqb_spec in H; congruence]. Qed.
Lemma eqb_false a b : a <> b -> eqb a b = false.
Proof. intros H. destruct (eqb a b) eqn:E; [apply eqb_spec in E; contradiction|reflexivity]. Qed.
Lemma mem_spec (l : list K) k : existsb (fun x => eqb x k) l = true <-> In k l.
Proof.
  rewrite existsb_exists. split.
  - intros [x [Hx E]]. apply eqb_spec in E. subst. exact Hx.
  - intros H. exists k. split; [exact H|apply eqb_refl].
Qed.
Lemma mem_false (l : list K) k : existsb (fun x => eqb x k) l = false <-> ~ In k l.
Proof. rewrite <- mem_spec. destruct (existsb _ l); split; congruence. Qed.

(** ** The map *)
Lemma find_keys (m : list (K * V)) k : map_find eqb m k <> None <-> In k (map fst m).
Proof.
  induction m as [|[k' v] m IH]; cbn; [tauto|].
  destruct (eqb k' k) eqn:E.
  - apply eqb_spec in E. subst. split; [auto|discriminate].
  - rewrite IH. split; [auto|]. intros [->|H]; [rewrite eqb_refl in E; discriminate|exact H].
Qed.
Lemma find_none (m : list (K * V)) k : map_find eqb m k = None <-> ~ In k (map fst m).
Proof.
  rewrite <- find_keys. destruct (map_find eqb m k); split; try congruence.
  intros H. exfalso. apply H. discriminate.
Qed.
Lemma erase_find (m : list (K * V)) k k' : k <> k' -> map_find eqb (map_erase eqb m k) k' = map_find eqb m k'.
Proof.
  intros N. induction m as [|[a v] m IH]; cbn; [reflexivity|].
  destruct (eqb a k) eqn:E.
  - apply eqb_spec in E. subst. rewrite (eqb_false _ _ N). reflexivity.
  - cbn. rewrite IH. reflexivity.
Qed.
Lemma erase_in (m : list (K * V)) k x : In x (map fst (map_erase eqb m k)) -> In x (map fst m).
Proof.
  induction m as [|[a v] m IH]; cbn; [tauto|]. destruct (eqb a k); cbn; [auto|]. intros [H|H]; auto.
Qed.
Lemma erase_nodup (m : list (K * V)) k : NoDup (map fst m) -> NoDup (map fst (map_erase eqb m k)).
Proof.
  induction m as [|[a v] m IH]; cbn; intros H; [constructor|]. inversion H; subst.
  destruct (eqb a k); [assumption|]. cbn. constructor; [|auto]. intros Hi. apply erase_in in Hi. contradiction.
Qed.
Lemma erase_gone (m : list (K * V)) k : NoDup (map fst m) -> map_find eqb (map_erase eqb m k) k = None.
Proof.
  induction m as [|[a v] m IH]; cbn; intros H; [reflexivity|]. inversion H; subst.
  destruct (eqb a k) eqn:E.
  - apply eqb_spec in E. subst. apply find_none. assumption.
  - cbn. rewrite E. auto.
Qed.
Lemma erase_length (m : list (K * V)) k : In k (map fst m) -> length m = S (length (map_erase eqb m k)).
Proof.
  induction m as [|[a v] m IH]; cbn; [tauto|]. destruct (eqb a k) eqn:E; [reflexivity|].
  intros [->|H]; [rewrite eqb_refl in E; discriminate|]. cbn. f_equal. auto.
Qed.

(** ** The queue *)
Lemma unlink_some (q : list K) k : In k q -> exists q', unlink eqb q k = Some q'.
Proof.
  induction q as [|a q IH]; cbn; [tauto|]. intros H. destruct (eqb a k) eqn:E; [eauto|].
  destruct H as [->|H]; [rewrite eqb_refl in E; discriminate|]. destruct (IH H) as [q' ->]. cbn. eauto.
Qed.
Lemma filter_all (l : list K) k : ~ In k l -> filter (fun x => negb (eqb x k)) l = l.
Proof.
  induction l as [|a l IH]; cbn; [reflexivity|]. intros H.
  rewrite (eqb_false a k) by tauto. cbn. rewrite IH by tauto. reflexivity.
Qed.
Lemma unlink_filter (q q' : list K) k : NoDup q -> unlink eqb q k = Some q' ->
  q' = filter (fun x => negb (eqb x k)) q.
Proof.
  revert q'. induction q as [|a q IH]; cbn; intros q' H; [discriminate|]. inversion H; subst.
  destruct (eqb a k) eqn:E; cbn.
  - apply eqb_spec in E. subst. intros [= <-]. symmetry. apply filter_all. assumption.
  - destruct (unlink eqb q k) as [r|] eqn:U; cbn; [|discriminate]. intros [= <-]. f_equal. auto.
Qed.
Lemma candidate_last (q : list K) k : policy_candidate (q ++ [k]) = Ret k.
Proof. induction q as [|a q IH]; [reflexivity|]. cbn. destruct (q ++ [k]) eqn:E; [destruct q; discriminate|exact IH]. Qed.
Lemma firstn_in (n : nat) (l : list K) x : In x (firstn n l) -> In x l.
Proof. revert l. induction n; intros [|a l]; cbn; try tauto. intros [H|H]; auto. Qed.
Lemma firstn_nodup (n : nat) (l : list K) : NoDup l -> NoDup (firstn n l).
Proof.
  revert l. induction n; intros [|a l] H; cbn; try constructor; inversion H; subst; [|auto].
  intros Hi. apply firstn_in in Hi. contradiction.
Qed.
Lemma distinct_in (l : list K) x : In x (distinct eqb l) <-> In x l.
Proof.
  induction l as [|a l IH]; cbn; [tauto|]. rewrite filter_In, IH.
  destruct (eqb_dec a x) as [->|N]; [tauto|]. rewrite (eqb_false x a) by congruence. cbn. tauto.
Qed.
Lemma distinct_nodup (l : list K) : NoDup (distinct eqb l).
Proof.
  induction l as [|a l IH]; cbn; constructor.
  - rewrite filter_In, eqb_refl. cbn. intros [_ H]. discriminate.
  - apply NoDup_filter, IH.
Qed.
(** Dropping the eldest of [S n] entries leaves the [n] newest. *)
Lemma filter_front (n : nat) (l : list K) k : ~ In k (firstn n l) ->
  firstn n (filter (fun x => negb (eqb x k)) l) = firstn n l \/ In k (firstn (S n) l).
Proof.
  revert n. induction l as [|a l IH]; intros n H; [left; destruct n; reflexivity|].
  destruct n as [|n]; [left; reflexivity|]. cbn in H |- *.
  rewrite (eqb_false a k) by tauto. cbn. destruct (IH n) as [E|E]; [tauto|rewrite E; auto|].
  right. right. exact E.
Qed.
Lemma filter_front_miss (n : nat) (l : list K) k : ~ In k (firstn (S n) l) ->
  firstn n (filter (fun x => negb (eqb x k)) l) = firstn n l.
Proof.
  intros H. destruct (filter_front n l k) as [E|E]; [|exact E|contradiction].
  intros Hi. apply H. clear -Hi. revert l Hi. induction n; intros [|a l] Hi; cbn in *; try tauto.
  destruct Hi; [auto|]. right. exact (IHn _ H).
Qed.
Lemma filter_front_hit (n : nat) (l : list K) k : NoDup l -> In k (firstn (S n) l) ->
  firstn n (filter (fun x => negb (eqb x k)) l) = filter (fun x => negb (eqb x k)) (firstn (S n) l).
Proof.
  revert n. induction l as [|a l IH]; intros n H Hi; [contradiction|]. inversion H; subst.
  cbn [firstn] in Hi |- *. cbn [filter]. destruct (eqb_dec a k) as [->|N].
  - rewrite eqb_refl. cbn [negb]. rewrite !filter_all; [reflexivity| |assumption].
    intros C. apply firstn_in in C. contradiction.
  - rewrite (eqb_false a k N). cbn [negb]. destruct Hi as [->|Hi]; [contradiction|].
    destruct n as [|n]; [destruct l; contradiction|]. cbn [firstn]. f_equal. apply IH; assumption.
Qed.
Lemma removelast_firstn_S (n : nat) (l : list K) : length (firstn (S n) l) = S n ->
  removelast (firstn (S n) l) = firstn n l.
Proof. intros H. rewrite firstn_length in H. apply removelast_firstn. lia. Qed.

(** ** Folding one more event *)
Lemma last_put_snoc (h : history K V) o r k : last_put eqb (h ++ [(o, r)]) k =
  match o with
  | CPut k' v => if eqb k' k then Some v else last_put eqb h k
  | CClear => None
  | _ => last_put eqb h k
  end.
Proof. unfold last_put. rewrite fold_left_app. destruct o; reflexivity. Qed.
Lemma uses_snoc (h : history K V) o r : uses (h ++ [(o, r)]) =
  match o with CClear => [] | _ => used (o, r) ++ uses h end.
Proof. unfold uses. rewrite fold_left_app. destruct o; reflexivity. Qed.
Lemma arrivals_snoc cap (h : history K V) o r : arrivals eqb cap (h ++ [(o, r)]) =
  match o with
  | CPut k _ => if existsb (fun x => eqb x k) (fifo_keys eqb cap h) then arrivals eqb cap h else k :: arrivals eqb cap h
  | CClear => []
  | _ => arrivals eqb cap h
  end.
Proof. unfold arrivals, fifo_keys. rewrite fold_left_app. destruct o; reflexivity. Qed.

(** ** The invariant *)
Record Inv (p : policy) (cap : N) (h : history K V) (c : cache K V) : Prop := {
  inv_cap : max_cache_size c = cap;
  inv_queue : queue c = kept eqb p cap h;
  inv_nodup : NoDup (queue c);
  inv_keys : NoDup (map fst (cache_items_map c));
  inv_same : forall k, In k (map fst (cache_items_map c)) <-> In k (queue c);
  inv_value : forall k, In k (queue c) -> map_find eqb (cache_items_map c) k = last_put eqb h k
}.

Lemma same_length (m : list (K * V)) (q : list K) : NoDup (map fst m) -> NoDup q ->
  (forall k, In k (map fst m) <-> In k q) -> length m = length q.
Proof.
  intros N1 N2 E. rewrite <- (map_length fst m). apply Nat.le_antisymm; apply NoDup_incl_length; auto;
  intros x Hx; apply E; exact Hx.
Qed.
Lemma Inv_length p cap h c : Inv p cap h c -> length (cache_items_map c) = length (queue c).
Proof. intros []. apply same_length; assumption. Qed.
Lemma Inv_mem p cap h c k : Inv p cap h c ->
  existsb (fun x => eqb x k) (kept eqb p cap h) = Cached eqb c k.
Proof.
  intros I. rewrite <- (inv_queue _ _ _ _ I). unfold Cached.
  destruct (map_find eqb (cache_items_map c) k) eqn:E.
  - apply mem_spec, (inv_same _ _ _ _ I), find_keys. congruence.
  - apply mem_false. intros H. apply (inv_same _ _ _ _ I) in H. apply find_keys in H. congruence.
Qed.
Lemma kept_len p cap (h : history K V) : (length (kept eqb p cap h) <= N.to_nat cap)%nat.
Proof. destruct p; cbn; unfold fifo_keys, lru_keys; apply firstn_le_length. Qed.

Lemma Inv_init p max_size : 1 <= max_size -> Inv p max_size [] (cache_new max_size).
Proof.
  intros H. constructor; cbn; try reflexivity; try tauto; try constructor.
  { destruct (N.eqb_spec max_size 0); [lia|reflexivity]. }
  destruct p; cbn; unfold fifo_keys, lru_keys; cbn; destruct (N.to_nat _); reflexivity.
Qed.

(** Events that change neither the order nor the values. *)
Lemma Inv_quiet p cap h c o r : Inv p cap h c ->
  match o with CCached _ | CSize => True | CGet _ => match r with RValue _ => p = FIFO | _ => True end | _ => False end ->
  Inv p cap (h ++ [(o, r)]) c.
Proof.
  intros [A B C D E F] H. constructor; auto.
  - rewrite B. destruct p; cbn.
    + unfold fifo_keys. rewrite arrivals_snoc. destruct o; try contradiction; reflexivity.
    + unfold lru_keys. rewrite uses_snoc. destruct o; try contradiction; try reflexivity.
      destruct r; try reflexivity. discriminate.
  - intros k Hk. rewrite last_put_snoc. destruct o; try contradiction; apply F; exact Hk.
Qed.

Lemma touch_kept cap h c k v : Inv LRU cap h c -> 1 <= cap -> In k (queue c) ->
  exists q, policy_touch eqb LRU (queue c) k = Ret q /\
    (forall x, In x q <-> In x (queue c)) /\ NoDup q /\
    (forall e, used e = [k] -> e = (CGet k, RValue v) \/ e = (CPut k v, RUnit) -> q = kept eqb LRU cap (h ++ [e])).
Proof.
  intros I Hc Hk. cbn. destruct (unlink_some (queue c) k Hk) as [q' E]. rewrite E.
  pose proof (unlink_filter _ _ _ (inv_nodup _ _ _ _ I) E) as F. exists (k :: q'). split; [reflexivity|]. split.
  { intros x. subst q'. cbn. rewrite filter_In. destruct (eqb_dec k x) as [->|N]; [tauto|].
    rewrite (eqb_false x k) by congruence. cbn. intuition congruence. }
  split.
  { constructor; [subst q'; rewrite filter_In, eqb_refl; cbn; intros [_ C]; discriminate|].
    subst q'. apply NoDup_filter, (inv_nodup _ _ _ _ I). }
  intros e Hu He. assert (U : uses (h ++ [e]) = k :: uses h).
  { destruct He as [-> | ->]; rewrite uses_snoc; reflexivity. }
  cbn. unfold lru_keys. rewrite U. cbn [distinct]. pose proof (inv_queue _ _ _ _ I) as Q. cbn in Q. unfold lru_keys in Q.
  destruct (N.to_nat cap) as [|n] eqn:Ec; [lia|]. cbn [firstn]. f_equal. rewrite F, Q. symmetry.
  apply filter_front_hit; [apply distinct_nodup|]. rewrite <- Q. exact Hk.
Qed.

Lemma put_ok p cap h c k v : 1 <= cap < W64 - 1 -> Inv p cap h c ->
  exists c', Put eqb p c k v = Ret c' /\ Inv p cap (h ++ [(CPut k v, RUnit)]) c'.
Proof.
  intros Hc I. unfold Put. pose proof (Inv_length _ _ _ _ I) as L. pose proof (kept_len p cap h) as KL.
  rewrite <- (inv_queue _ _ _ _ I) in KL.
  destruct (map_find eqb (cache_items_map c) k) as [w|] eqn:Ef.
  - assert (Hk : In k (queue c)). { apply (inv_same _ _ _ _ I), find_keys. congruence. }
    assert (VAL : forall x, In x (queue c) -> map_find eqb (map_set eqb (cache_items_map c) k v) x = last_put eqb (h ++ [(CPut k v, RUnit)]) x).
    { intros x Hx. rewrite last_put_snoc. unfold map_set. cbn. destruct (eqb k x) eqn:Ex; [reflexivity|].
      rewrite erase_find; [apply (inv_value _ _ _ _ I), Hx|]. intros ->. rewrite eqb_refl in Ex. discriminate. }
    assert (KS : forall x, In x (map fst (map_set eqb (cache_items_map c) k v)) <-> In x (queue c)).
    { intros x. unfold map_set. cbn. split.
      - intros [<-|H]; [exact Hk|]. apply (inv_same _ _ _ _ I). apply erase_in in H. exact H.
      - intros H. destruct (eqb_dec k x) as [->|N]; [auto|]. right. apply find_keys. rewrite erase_find by exact N.
        apply find_keys. apply (inv_same _ _ _ _ I), H. }
    assert (ND : NoDup (map fst (map_set eqb (cache_items_map c) k v))).
    { unfold map_set. cbn. constructor; [|apply erase_nodup, (inv_keys _ _ _ _ I)].
      apply find_none, erase_gone, (inv_keys _ _ _ _ I). }
    unfold cache_update. destruct p.
    + cbn [policy_touch obind]. eexists. split; [reflexivity|]. constructor; cbn [queue cache_items_map max_cache_size]; auto.
      * apply (inv_cap _ _ _ _ I).
      * rewrite (inv_queue _ _ _ _ I). cbn. unfold fifo_keys. rewrite arrivals_snoc.
        pose proof (Inv_mem _ _ _ _ k I) as M. cbn in M. rewrite M. unfold Cached. rewrite Ef. reflexivity.
      * apply (inv_nodup _ _ _ _ I).
    + destruct (touch_kept cap h c k v I ltac:(lia) Hk) as [q [E [S [N Q]]]]. rewrite E. cbn [obind].
      eexists. split; [reflexivity|]. constructor; cbn [queue cache_items_map max_cache_size].
      * apply (inv_cap _ _ _ _ I).
      * apply Q; [reflexivity|right; reflexivity].
      * exact N.
      * exact ND.
      * intros x. rewrite KS, S. tauto.
      * intros x Hx. apply VAL, S, Hx.
  - assert (Hn : ~ In k (queue c)). { intros H. apply (inv_same _ _ _ _ I), find_keys in H. congruence. }
    assert (NEW : kept eqb p cap (h ++ [(CPut k v, RUnit)]) = k :: (if max_cache_size c <? N.of_nat (length (cache_items_map c)) + 1 then removelast (queue c) else queue c)).
    { rewrite (inv_cap _ _ _ _ I), L. rewrite (inv_queue _ _ _ _ I) in Hn, KL |- *.
      destruct p; cbn in Hn, KL |- *.
      - unfold fifo_keys. rewrite arrivals_snoc. apply mem_false in Hn. rewrite Hn. unfold fifo_keys in *.
        destruct (N.to_nat cap) as [|n] eqn:Ec; [lia|]. rewrite firstn_cons. f_equal.
        destruct (N.ltb_spec cap (N.of_nat (length (firstn (S n) (arrivals eqb cap h))) + 1)) as [Hl|Hl].
        + symmetry. apply removelast_firstn_S. lia.
        + rewrite !firstn_all2; [reflexivity| |]; rewrite firstn_length in Hl; lia.
      - unfold lru_keys in *. rewrite uses_snoc. cbn [used app distinct].
        destruct (N.to_nat cap) as [|n] eqn:Ec; [lia|]. rewrite firstn_cons. f_equal.
        rewrite filter_front_miss by exact Hn.
        destruct (N.ltb_spec cap (N.of_nat (length (firstn (S n) (distinct eqb (uses h)))) + 1)) as [Hl|Hl].
        + symmetry. apply removelast_firstn_S. lia.
        + rewrite !firstn_all2; [reflexivity| |]; rewrite firstn_length in Hl; lia. }
    assert (AD : add64 (N.of_nat (length (cache_items_map c))) 1 = N.of_nat (length (cache_items_map c)) + 1).
    { apply N.mod_small. lia. }
    rewrite AD. clear AD.
    assert (VAL : forall m q, (forall x, In x q -> x <> k -> map_find eqb m x = last_put eqb h x) -> map_find eqb m k = None ->
      forall x, In x (k :: q) -> map_find eqb (map_emplace eqb m k v) x = last_put eqb (h ++ [(CPut k v, RUnit)]) x).
    { intros m q Hm Hf x Hx. rewrite last_put_snoc. unfold map_emplace. rewrite Hf. cbn. destruct (eqb k x) eqn:Ex; [reflexivity|].
      assert (k <> x) by (intros ->; rewrite eqb_refl in Ex; discriminate).
      destruct Hx as [->|Hx]; [contradiction|]. apply Hm; auto. }
    destruct (N.ltb_spec (max_cache_size c) (N.of_nat (length (cache_items_map c)) + 1)) as [Hl|Hl].
    + destruct (exists_last (l := queue c)) as [q [z Eq]].
      { intros C. rewrite C in L. cbn in L. rewrite (inv_cap _ _ _ _ I) in Hl. lia. }
      rewrite Eq, candidate_last. cbn [obind]. unfold cache_erase. rewrite Eq.
      assert (PE : policy_erase (q ++ [z]) = Ret q). { unfold policy_erase. destruct (q ++ [z]) eqn:X; [destruct q; discriminate|]. rewrite <- X, removelast_last. reflexivity. }
      rewrite PE. cbn [obind]. clear PE. pose proof (inv_nodup _ _ _ _ I) as ND. rewrite Eq in ND, Hn, NEW. rewrite removelast_last in NEW.
      assert (Hz : In z (map fst (cache_items_map c))). { apply (inv_same _ _ _ _ I). rewrite Eq. apply in_or_app. right. left. reflexivity. }
      destruct (map_find eqb (cache_items_map c) z) eqn:Ez; [|apply find_none in Ez; contradiction].
      cbn [obind]. eexists. split; [reflexivity|].
      assert (NZ : ~ In z q). { apply NoDup_remove_2 in ND. rewrite app_nil_r in ND. exact ND. }
      assert (kz : z <> k). { intros ->. apply Hn. apply in_or_app. right. left. reflexivity. }
      assert (Fk : map_find eqb (map_erase eqb (cache_items_map c) z) k = None). { rewrite erase_find by exact kz. exact Ef. }
      assert (SM : forall x, In x (map fst (map_erase eqb (cache_items_map c) z)) <-> In x q).
      { intros x. rewrite <- find_keys. destruct (eqb_dec z x) as [<-|N].
        - rewrite erase_gone by apply (inv_keys _ _ _ _ I). tauto.
        - rewrite erase_find by exact N. rewrite find_keys, (inv_same _ _ _ _ I), Eq, in_app_iff. cbn. tauto. }
      constructor; cbn [queue cache_items_map max_cache_size cache_insert policy_insert].
      * apply (inv_cap _ _ _ _ I).
      * symmetry. exact NEW.
      * constructor; [intros C; apply Hn, in_or_app; auto|]. apply NoDup_remove_1 in ND. rewrite app_nil_r in ND. exact ND.
      * unfold map_emplace. rewrite Fk. cbn. constructor; [apply find_none, Fk|apply erase_nodup, (inv_keys _ _ _ _ I)].
      * intros x. unfold map_emplace. rewrite Fk. cbn. rewrite SM. tauto.
      * apply VAL; [|exact Fk]. intros x Hx Nx. rewrite erase_find; [|intros ->; contradiction].
        apply (inv_value _ _ _ _ I). rewrite Eq. apply in_or_app. left. exact Hx.
    + cbn [obind]. eexists. split; [reflexivity|].
      constructor; cbn [queue cache_items_map max_cache_size cache_insert policy_insert].
      * apply (inv_cap _ _ _ _ I).
      * symmetry. exact NEW.
      * constructor; [exact Hn|apply (inv_nodup _ _ _ _ I)].
      * unfold map_emplace. rewrite Ef. cbn. constructor; [apply find_none, Ef|apply (inv_keys _ _ _ _ I)].
      * intros x. unfold map_emplace. rewrite Ef. cbn. rewrite (inv_same _ _ _ _ I). tauto.
      * apply VAL; [|exact Ef]. intros x Hx Nx. apply (inv_value _ _ _ _ I), Hx.
Qed.

Lemma get_ok p cap h c k : 1 <= cap < W64 - 1 -> Inv p cap h c ->
  match map_find eqb (cache_items_map c) k with
  | None => Get eqb p c k = Throw
  | Some v => last_put eqb h k = Some v /\
              exists c', Get eqb p c k = Ret (v, c') /\ Inv p cap (h ++ [(CGet k, RValue v)]) c'
  end.
Proof.
  intros Hc I. unfold Get. destruct (map_find eqb (cache_items_map c) k) as [v|] eqn:Ef; [|reflexivity].
  assert (Hk : In k (queue c)). { apply (inv_same _ _ _ _ I), find_keys. congruence. }
  split. { rewrite <- Ef. symmetry. apply (inv_value _ _ _ _ I), Hk. }
  destruct p.
  - cbn [policy_touch obind]. destruct c as [m q x]. eexists. split; [reflexivity|]. apply Inv_quiet; [exact I|reflexivity].
  - destruct (touch_kept cap h c k v I ltac:(lia) Hk) as [q [E [S [N Q]]]]. rewrite E. cbn [obind].
    eexists. split; [reflexivity|]. constructor; cbn [queue cache_items_map max_cache_size].
    + apply (inv_cap _ _ _ _ I).
    + apply Q; [reflexivity|left; reflexivity].
    + exact N.
    + apply (inv_keys _ _ _ _ I).
    + intros x. rewrite S. apply (inv_same _ _ _ _ I).
    + intros x Hx. rewrite last_put_snoc. apply (inv_value _ _ _ _ I), S, Hx.
Qed.
Lemma clear_ok (m : list (K * V)) (q : list K) : length m = length q -> clear_queue m q = Ret [].
Proof.
  revert q. induction m as [|e m IH]; intros q L; cbn.
  - destruct q; [reflexivity|discriminate].
  - destruct q as [|a q]; [discriminate|]. cbn [policy_erase obind]. apply IH.
    rewrite removelast_firstn_len, firstn_length. cbn in *. lia.
Qed.

Lemma step_ok p cap h c o : 1 <= cap < W64 - 1 -> Inv p cap h c ->
  exists c', cache_step eqb p c o = Ret (expected eqb p cap h o, c') /\ Inv p cap (h ++ [(o, expected eqb p cap h o)]) c'.
Proof.
  intros Hc I. destruct o as [k v|k|k| |]; cbn [cache_step expected].
  - destruct (put_ok p cap h c k v Hc I) as [c' [-> I']]. cbn [obind]. eauto.
  - pose proof (get_ok p cap h c k Hc I) as G. rewrite (Inv_mem _ _ _ _ k I). unfold Cached.
    destruct (map_find eqb (cache_items_map c) k) as [v|] eqn:Ef.
    + destruct G as [-> [c' [-> I']]]. eauto.
    + rewrite G. eexists. split; [reflexivity|]. apply Inv_quiet; [exact I|exact Logic.I].
  - rewrite (Inv_mem _ _ _ _ k I). eexists. split; [reflexivity|]. apply Inv_quiet; [exact I|exact Logic.I].
  - unfold Size. rewrite (Inv_length _ _ _ _ I), (inv_queue _ _ _ _ I). eexists. split; [reflexivity|].
    apply Inv_quiet; [exact I|exact Logic.I].
  - unfold Clear. rewrite clear_ok by apply (Inv_length _ _ _ _ I). cbn [obind]. eexists. split; [reflexivity|].
    constructor; cbn; try tauto; try constructor.
    + apply (inv_cap _ _ _ _ I).
    + destruct p; cbn; unfold fifo_keys, lru_keys; rewrite ?arrivals_snoc, ?uses_snoc; destruct (N.to_nat cap); reflexivity.
Qed.
Lemma run_ok p cap os : 1 <= cap < W64 - 1 -> forall h c, Inv p cap h c ->
  exists rs c', cache_run eqb p c os = Ret (rs, c') /\ as_expected eqb p cap h os rs.
Proof.
  intros Hc. induction os as [|o os IH]; intros h c I; cbn.
  - eexists _, _. split; [reflexivity|exact Logic.I].
  - destruct (step_ok p cap h c o Hc I) as [c1 [-> I1]]. cbn [obind fst snd].
    destruct (IH _ _ I1) as [rs [c' [-> A]]]. cbn [obind fst snd]. eexists _, _. split; [reflexivity|]. cbn. auto.
Qed.
Lemma run_app p (c : cache K V) os1 os2 rs1 c1 : cache_run eqb p c os1 = Ret (rs1, c1) ->
  cache_run eqb p c (os1 ++ os2) = let* r := cache_run eqb p c1 os2 in Ret (rs1 ++ fst r, snd r).
Proof.
  revert c rs1. induction os1 as [|o os IH]; intros c rs1; cbn.
  - intros H. injection H as <- <-. destruct (cache_run eqb p c os2) as [[rs c']| |]; reflexivity.
  - destruct (cache_step eqb p c o) as [[r c2]| |]; cbn; try discriminate.
    destruct (cache_run eqb p c2 os) as [[rs c3]| |] eqn:E; cbn; try discriminate.
    intros H. injection H as <- <-. rewrite (IH _ _ E). destruct (cache_run eqb p c3 os2) as [[rs' c']| |]; reflexivity.
Qed.
Lemma run_inv p cap os : 1 <= cap < W64 - 1 -> forall h c, Inv p cap h c -> forall rs c',
  cache_run eqb p c os = Ret (rs, c') -> Inv p cap (h ++ combine os rs) c' /\ length rs = length os.
Proof.
  intros Hc. induction os as [|o os IH]; intros h c I rs c'; cbn.
  - intros H. injection H as <- <-. cbn. rewrite app_nil_r. auto.
  - destruct (step_ok p cap h c o Hc I) as [c1 [-> I1]]. cbn [obind fst snd].
    destruct (cache_run eqb p c1 os) as [[rs1 c2]| |] eqn:E; cbn; try discriminate.
    intros H. injection H as <- <-. destruct (IH _ _ I1 _ _ E) as [I2 L]. cbn. split; [|congruence].
    rewrite <- app_assoc in I2. exact I2.
Qed.

(** ** What is evicted *)
Lemma filter_split (f : K -> bool) l A B : filter f l = A ++ B -> exists A' B', l = A' ++ B' /\ filter f A' = A /\ filter f B' = B.
Proof.
  revert A. induction l as [|a l IH]; intros A H; cbn in H.
  - destruct A; [|discriminate]. destruct B; [|discriminate]. exists [], []. auto.
  - destruct (f a) eqn:E.
    + destruct A as [|x A]; cbn in H.
      * exists [], (a :: l). split; [reflexivity|]. split; [reflexivity|]. cbn. rewrite E. exact H.
      * injection H as <- H. destruct (IH A H) as [A' [B' [-> [F1 F2]]]]. exists (a :: A'), B'. cbn. rewrite E, F1. auto.
    + destruct (IH A H) as [A' [B' [-> [F1 F2]]]]. exists (a :: A'), B'. cbn. rewrite E. auto.
Qed.
Lemma newer_distinct l y x : x <> y -> newer (distinct eqb l) y x -> newer l y x.
Proof.
  intros N. induction l as [|a l IH]; cbn; [auto|]. intros [A [B [E [Ay [Ax Bx]]]]].
  destruct A as [|a' A]; [contradiction|]. cbn in E. injection E as <- E.
  assert (Hx : In x l).
  { apply distinct_in. apply (filter_In (fun x => negb (eqb x a)) x). rewrite E. apply in_or_app. auto. }
  destruct (eqb_dec a y) as [->|Ny].
  - exists [y], l. cbn. split; [reflexivity|]. split; [auto|]. split; [intros [C|[]]; congruence|exact Hx].
  - assert (newer l y x) as [A1 [B1 [-> [Y [X Z]]]]].
    { apply IH. destruct (filter_split _ _ _ _ E) as [A' [B' [E' [F1 F2]]]]. exists A', B'. split; [exact E'|].
      cbn in Ax. split.
      - destruct Ay as [->|Ay]; [contradiction|]. rewrite <- F1 in Ay. apply filter_In in Ay. tauto.
      - split.
        + intros C. apply Ax. right. rewrite <- F1. apply filter_In. split; [exact C|]. rewrite (eqb_false x a); [reflexivity|]. intros ->. tauto.
        + rewrite <- F2 in Bx. apply filter_In in Bx. tauto. }
    exists (a :: A1), B1. cbn. split; [reflexivity|]. split; [auto|]. cbn in Ax. tauto.
Qed.
Lemma evict p cap h c c' k v x : 1 <= cap < W64 - 1 -> Inv p cap h c -> Put eqb p c k v = Ret c' ->
  Cached eqb c x = true -> Cached eqb c' x = false ->
  Cached eqb c k = false /\ Size c = cap /\
  (forall y, y <> x -> Cached eqb c y = true -> newer (match p with FIFO => arrivals eqb cap h | LRU => uses h end) y x).
Proof.
  intros Hc I E Cx Nx. destruct (put_ok p cap h c k v Hc I) as [c1 [E1 I1]]. rewrite E in E1. injection E1 as <-.
  rewrite <- (Inv_mem _ _ _ _ _ I1) in Nx. rewrite <- (Inv_mem _ _ _ _ _ I) in Cx.
  apply mem_false in Nx. apply mem_spec in Cx. rewrite <- (inv_queue _ _ _ _ I) in Cx. rewrite <- (inv_queue _ _ _ _ I1) in Nx.
  assert (Q : forall z, In z (queue c) -> Cached eqb c z = true).
  { intros z Hz. rewrite <- (Inv_mem _ _ _ _ _ I). apply mem_spec. rewrite <- (inv_queue _ _ _ _ I). exact Hz. }
  assert (Q' : forall z, Cached eqb c z = true -> In z (queue c)).
  { intros z Hz. rewrite <- (Inv_mem _ _ _ _ _ I) in Hz. apply mem_spec in Hz. rewrite <- (inv_queue _ _ _ _ I) in Hz. exact Hz. }
  unfold Put in E. unfold Cached at 1. pose proof (Inv_length _ _ _ _ I) as L. pose proof (kept_len p cap h) as KL.
  rewrite <- (inv_queue _ _ _ _ I) in KL.
  destruct (map_find eqb (cache_items_map c) k) as [w|] eqn:Ef.
  - exfalso. unfold cache_update in E. destruct p; cbn in E.
    + injection E as <-. cbn in Nx. contradiction.
    + destruct (unlink eqb (queue c) k) as [q|] eqn:U; cbn in E; [|discriminate]. injection E as <-. cbn in Nx.
      apply Nx. pose proof (unlink_filter _ _ _ (inv_nodup _ _ _ _ I) U) as ->. destruct (eqb_dec k x) as [->|N]; [auto|].
      right. apply filter_In. split; [exact Cx|]. rewrite (eqb_false x k) by congruence. reflexivity.
  - split; [reflexivity|]. assert (AD : add64 (N.of_nat (length (cache_items_map c))) 1 = N.of_nat (length (cache_items_map c)) + 1) by (apply N.mod_small; lia). rewrite AD in E. clear AD.
    destruct (N.ltb_spec (max_cache_size c) (N.of_nat (length (cache_items_map c)) + 1)) as [Hl|Hl].
    + rewrite (inv_cap _ _ _ _ I) in Hl. split; [unfold Size; lia|].
      destruct (exists_last (l := queue c)) as [q [z Eq]]. { intros C. rewrite C in Cx. contradiction. }
      rewrite Eq, candidate_last in E. cbn [obind] in E. unfold cache_erase in E. rewrite Eq in E.
      assert (PE : policy_erase (q ++ [z]) = Ret q). { unfold policy_erase. destruct (q ++ [z]) eqn:X; [destruct q; discriminate|]. rewrite <- X, removelast_last. reflexivity. }
      rewrite PE in E. cbn [obind] in E. destruct (map_find eqb (cache_items_map c) z); [|discriminate]. cbn [obind] in E. injection E as <-.
      cbn in Nx. rewrite Eq in Cx. apply in_app_or in Cx. destruct Cx as [Cx|[->|[]]]; [tauto|].
      pose proof (inv_nodup _ _ _ _ I) as ND. rewrite Eq in ND. apply NoDup_remove_2 in ND. rewrite app_nil_r in ND.
      intros y Ny Cy. apply Q' in Cy. rewrite Eq in Cy. apply in_app_or in Cy. destruct Cy as [Cy|[->|[]]]; [|contradiction].
      assert (NW : forall l, queue c = firstn (N.to_nat cap) l -> newer l y x).
      { intros l H. exists q, (x :: skipn (N.to_nat cap) l). split.
        - rewrite <- (firstn_skipn (N.to_nat cap) l) at 1. rewrite <- H, Eq, <- app_assoc. reflexivity.
        - split; [exact Cy|]. split; [exact ND|left; reflexivity]. }
      pose proof (inv_queue _ _ _ _ I) as QE. destruct p; cbn in QE; [apply NW, QE|].
      apply newer_distinct; [congruence|]. apply NW, QE.
    + exfalso. cbn [obind] in E. injection E as <-. cbn in Nx. tauto.
Qed.
End Proofs.

(** ** Range proofs *)
Section RangeProofs.
Variable parses : bytes -> bool.
Variable verifies : bytes -> bytes -> bool.
Notation pcache := (cache bytes bytes).

(** A cache reached by calls, holding [k] for the key [k], whose keys all satisfy [ver]. *)
Definition good (ver : bytes -> Prop) (c : pcache) : Prop :=
  (exists h, Inv bytes bytes bytes_eqb LRU 3000 h c /\ forall k v, last_put bytes_eqb h k = Some v -> v = k) /\
  (forall k, Cached bytes_eqb c k = true -> ver k).
Lemma good_init ver : good ver proofs_cache.
Proof.
  split; [|intros k; cbn; discriminate]. exists []. split; [apply Inv_init; lia|discriminate].
Qed.
Lemma good_weaken (ver ver' : bytes -> Prop) c : (forall k, ver k -> ver' k) -> good ver c -> good ver' c.
Proof. intros H [A B]. split; [exact A|auto]. Qed.

Lemma already_ok ver c k : good ver c ->
  exists c', WasAlreadyVerified c k = Ret (Cached bytes_eqb c k, c') /\ good ver c' /\
             forall x, Cached bytes_eqb c' x = Cached bytes_eqb c x.
Proof.
  intros G. destruct G as [[h [I S]] B]. unfold WasAlreadyVerified. destruct (Cached bytes_eqb c k) eqn:E.
  - pose proof (get_ok _ _ _ bytes_eqb_spec LRU 3000 h c k ltac:(lia) I) as Gk.
    unfold Cached in E. destruct (map_find bytes_eqb (cache_items_map c) k) as [v|] eqn:Ef; [|discriminate].
    destruct Gk as [L [c' [Eg I']]]. pose proof Eg as Eg'. rewrite Eg. cbn [obind fst snd].
    rewrite (S _ _ L), bytes_eqb_refl. exists c'. split; [reflexivity|].
    assert (M : cache_items_map c' = cache_items_map c).
    { unfold Get in Eg'. rewrite Ef in Eg'. destruct (policy_touch bytes_eqb LRU (queue c) k); cbn in Eg'; try discriminate.
      injection Eg' as <-. reflexivity. }
    assert (SC : forall x, Cached bytes_eqb c' x = Cached bytes_eqb c x) by (intros x; unfold Cached; rewrite M; reflexivity).
    split; [|exact SC]. split.
    + eexists. split; [exact I'|]. intros a b. rewrite last_put_snoc. apply S.
    + intros x. rewrite SC. apply B.
  - exists c. split; [reflexivity|]. split; [|reflexivity]. split; [eauto|exact B].
Qed.

(** The pairs selected are exactly those whose commitment is not cached. *)
Lemma select_ok ver l : forall c, good ver c ->
  exists c', select c l = Ret (filter (fun e => negb (Cached bytes_eqb c (fst e))) l, c') /\ good ver c' /\
             forall x, Cached bytes_eqb c' x = Cached bytes_eqb c x.
Proof.
  induction l as [|[k p] l IH]; intros c G; cbn [select filter fst].
  - exists c. auto.
  - destruct (already_ok ver c k G) as [c1 [-> [G1 S1]]]. cbn [obind fst snd].
    destruct (IH c1 G1) as [c2 [-> [G2 S2]]]. cbn [obind fst snd]. exists c2. split.
    + f_equal. f_equal. rewrite (filter_ext (fun e => negb (Cached bytes_eqb c1 (fst e))) (fun e => negb (Cached bytes_eqb c (fst e)))).
      * destruct (Cached bytes_eqb c k); reflexivity.
      * intros e. rewrite S1. reflexivity.
    + split; [exact G2|]. intros x. rewrite S2, S1. reflexivity.
Qed.
Lemma put_cached p (c c' : pcache) k v x : Put bytes_eqb p c k v = Ret c' -> Cached bytes_eqb c' x = true ->
  x = k \/ Cached bytes_eqb c x = true.
Proof.
  unfold Put. destruct (map_find bytes_eqb (cache_items_map c) k) eqn:Ef.
  - unfold cache_update. destruct (policy_touch bytes_eqb p (queue c) k); cbn; try discriminate. intros H. injection H as <-.
    unfold Cached. cbn. destruct (bytes_eqb k x) eqn:E; [apply bytes_eqb_spec in E; auto|].
    rewrite erase_find; [auto|exact bytes_eqb_spec|]. intros ->. rewrite bytes_eqb_refl in E. discriminate.
  - match goal with |- obind ?y _ = _ -> _ => set (o := y) end.
    assert (O : forall c1, o = Ret c1 -> Cached bytes_eqb c1 x = true -> Cached bytes_eqb c x = true).
    { intros c1. unfold o. destruct (max_cache_size c <? _); [|intros H; injection H as <-; auto].
      destruct (policy_candidate (queue c)) as [z| |]; cbn; try discriminate. unfold cache_erase.
      destruct (policy_erase (queue c)); cbn; try discriminate. destruct (map_find bytes_eqb (cache_items_map c) z) eqn:Ez; try discriminate.
      intros H. injection H as <-. unfold Cached. cbn. intros Hc.
      destruct (map_find bytes_eqb (map_erase bytes_eqb (cache_items_map c) z) x) eqn:Ex; [|discriminate].
      destruct (map_find bytes_eqb (cache_items_map c) x) eqn:Ey; [reflexivity|].
      apply (find_none _ _ _ bytes_eqb_spec) in Ey. exfalso. apply Ey. eapply erase_in. apply (find_keys _ _ _ bytes_eqb_spec). rewrite Ex. discriminate. }
    destruct o as [c1| |]; cbn; try discriminate. intros H. injection H as <-. unfold Cached. cbn. unfold map_emplace.
    destruct (map_find bytes_eqb (cache_items_map c1) k) eqn:E1.
    + intros Hc. right. apply (O c1 eq_refl). unfold Cached. exact Hc.
    + cbn. destruct (bytes_eqb k x) eqn:E; [apply bytes_eqb_spec in E; auto|].
      intros Hc. right. apply (O c1 eq_refl). unfold Cached. exact Hc.
Qed.
Lemma add_ok ver c k : good ver c -> ver k -> exists c', AddToCache c k = Ret c' /\ good ver c'.
Proof.
  intros [[h [I S]] B] V. unfold AddToCache.
  destruct (put_ok _ _ _ bytes_eqb_spec LRU 3000 h c k k ltac:(lia) I) as [c' [E I']]. exists c'. split; [exact E|]. split.
  - eexists. split; [exact I'|]. intros a b. rewrite last_put_snoc. destruct (bytes_eqb k a) eqn:X.
    + apply bytes_eqb_spec in X. congruence.
    + apply S.
  - intros x Hx. destruct (put_cached _ _ _ _ _ _ E Hx) as [->|Hx']; auto.
Qed.
Lemma add_all_ok ver l : forall c, good ver c -> (forall e, In e l -> ver (fst e)) -> exists c', add_all c l = Ret c' /\ good ver c'.
Proof.
  induction l as [|[k p] l IH]; intros c G V; cbn.
  - eauto.
  - destruct (add_ok ver c k G (V (k, p) (or_introl eq_refl))) as [c1 [-> G1]]. cbn [obind]. apply IH; [exact G1|].
    intros e He. apply V. right. exact He.
Qed.
Lemma multi_ok n l b : verify_multi verifies n l = Ret b ->
  b = forallb (fun e => verifies (fst e) (firstn n (snd e))) l /\ forall e, In e l -> (n <= length (snd e))%nat.
Proof.
  revert b. induction l as [|[k p] l IH]; intros b; cbn [verify_multi forallb fst snd].
  - intros H. injection H as <-. split; [reflexivity|]. intros e [].
  - destruct (Nat.ltb_spec (length p) n) as [L|L]; [discriminate|].
    destruct (verify_multi verifies n l) as [b'| |]; cbn [obind]; try discriminate. intros H. injection H as <-.
    destruct (IH b' eq_refl) as [-> A]. split; [reflexivity|]. intros e [<-|He]; [exact L|auto].
Qed.
Lemma multi_fault n l : (forall e, In e l -> (n <= length (snd e))%nat) ->
  verify_multi verifies n l = Ret (forallb (fun e => verifies (fst e) (firstn n (snd e))) l).
Proof.
  induction l as [|[k p] l IH]; intros H; cbn [verify_multi forallb fst snd]; [reflexivity|].
  destruct (Nat.ltb_spec (length p) n) as [L|L]; [specialize (H (k, p) (or_introl eq_refl)); cbn in H; lia|].
  rewrite IH; [reflexivity|]. intros e He. apply H. right. exact He.
Qed.

Lemma multi_no_throw n l : verify_multi verifies n l <> Throw.
Proof.
  induction l as [|[k p] l IH]; cbn [verify_multi]; [discriminate|].
  destruct (length p <? n)%nat; [discriminate|]. destruct (verify_multi verifies n l); cbn [obind]; try discriminate. contradiction.
Qed.

Lemma verify_ok bs c l : good (checked verifies bs) c ->
  match VerifyBulletproofs parses verifies c l with
  | Ret (b, c') =>
    good (checked verifies (bs ++ [l])) c' /\
    (b = true -> forall k p, In (k, p) l -> Cached bytes_eqb c k = true \/ verifies k (cut l p) = true)
  | Throw => exists t c', select c l = Ret (t, c') /\ good (checked verifies (bs ++ [l])) c'
  | Fault => True
  end.
Proof.
  intros G. unfold VerifyBulletproofs. destruct l as [|[k0 p0] l0]; [exact Logic.I|].
  set (l := (k0, p0) :: l0). destruct (select_ok _ l c G) as [c1 [E [G1 S1]]]. rewrite E. cbn [obind fst snd].
  assert (W : forall x, checked verifies bs x -> checked verifies (bs ++ [l]) x).
  { intros x [a [p [A [B C]]]]. exists a, p. split; [apply in_or_app; auto|auto]. }
  pose proof (good_weaken _ _ _ W G1) as G2.
  assert (SEL : forall k p, In (k, p) l -> Cached bytes_eqb c k = true \/ In (k, p) (filter (fun e => negb (Cached bytes_eqb c (fst e))) l)).
  { intros k p H. destruct (Cached bytes_eqb c k) eqn:X; [auto|]. right. apply filter_In. cbn. rewrite X. auto. }
  remember (filter (fun e => negb (Cached bytes_eqb c (fst e))) l) as todo eqn:Et.
  destruct todo as [|e t].
  - split; [exact G2|]. intros _ k p H. destruct (SEL k p H) as [X|[]]. auto.
  - destruct (forallb (fun e => parses (fst e)) (e :: t)); [|eauto].
    destruct (verify_multi verifies (length p0) (e :: t)) as [b| |] eqn:Em; cbn [obind]; [| |exact Logic.I].
    + apply multi_ok in Em. destruct Em as [-> LE].
      destruct (forallb (fun e => verifies (fst e) (firstn (length p0) (snd e))) (e :: t)) eqn:F.
      * rewrite forallb_forall in F.
        destruct (add_all_ok (checked verifies (bs ++ [l])) (e :: t) c1 G2) as [c2 [Ea G3]].
        { intros [k p] He. cbn. exists l, p. split; [apply in_or_app; right; left; reflexivity|]. split.
          - rewrite Et in He. apply filter_In in He. tauto.
          - apply (F (k, p) He). }
        rewrite Ea. cbn [obind]. split; [exact G3|]. intros _ k p H. destruct (SEL k p H) as [X|X]; [auto|].
        right. apply (F (k, p) X).
      * split; [exact G2|discriminate].
    + exfalso. exact (multi_no_throw _ _ Em).
Qed.
Lemma batches_ok ls : forall bs c c', good (checked verifies bs) c -> verify_batches parses verifies c ls = Ret c' ->
  good (checked verifies (bs ++ ls)) c'.
Proof.
  induction ls as [|l ls IH]; intros bs c c' G; cbn.
  - intros H. injection H as <-. rewrite app_nil_r. exact G.
  - unfold after_verify. pose proof (verify_ok bs c l G) as V.
    destruct (VerifyBulletproofs parses verifies c l) as [[b c1]| |]; cbn [obind].
    + destruct V as [G1 _]. intros H. rewrite (app_assoc bs [l] ls : bs ++ l :: ls = (bs ++ [l]) ++ ls). apply (IH _ c1); assumption.
    + destruct V as [t [c1 [-> G1]]]. cbn [obind snd]. intros H.
      rewrite (app_assoc bs [l] ls : bs ++ l :: ls = (bs ++ [l]) ++ ls). apply (IH _ c1); assumption.
    + discriminate.
Qed.
End RangeProofs.
