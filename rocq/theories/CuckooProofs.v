(** Proofs about the cycle verifiers. *)
From Coq Require Import Permutation Sorted.
From Verif Require Import Base CuckooModel CuckooSpec.
Local Open Scope nat_scope.

(** ** Indices *)
Lemma flip_flip i : flip (flip i) = i.
Proof.
  unfold flip. destruct (Nat.even i) eqn:E.
  - rewrite Nat.even_succ, <- Nat.negb_even, E. reflexivity.
  - destruct i as [|i]; [discriminate|]. cbn [Nat.pred].
    rewrite Nat.even_succ, <- Nat.negb_even in E. apply negb_false_iff in E. rewrite E. reflexivity.
Qed.
Lemma flip_neq i : flip i <> i.
Proof. unfold flip. destruct (Nat.even i) eqn:E; [lia|]. destruct i; [discriminate|cbn; lia]. Qed.
Lemma flip_inj i j : flip i = flip j -> i = j.
Proof. intros H. rewrite <- (flip_flip i), H. apply flip_flip. Qed.
Lemma flip_div2 i : Nat.div2 (flip i) = Nat.div2 i.
Proof.
  unfold flip. destruct (Nat.even i) eqn:E.
  - apply Nat.even_spec in E. symmetry. apply Nat.Even_div2. exact E.
  - destruct i as [|i]; [discriminate|]. cbn [Nat.pred].
    rewrite Nat.even_succ in E. rewrite <- Nat.negb_even in E. apply negb_false_iff in E.
    apply Nat.even_spec in E. apply Nat.Even_div2. exact E.
Qed.
Lemma flip_even i : Nat.even (flip i) = negb (Nat.even i).
Proof.
  unfold flip. destruct (Nat.even i) eqn:E.
  - rewrite Nat.even_succ, <- Nat.negb_even, E. reflexivity.
  - destruct i as [|i]; [discriminate|]. cbn [Nat.pred].
    rewrite Nat.even_succ, <- Nat.negb_even in E. apply negb_false_iff in E. rewrite E. reflexivity.
Qed.
Lemma same_edge i j : Nat.div2 i = Nat.div2 j -> i = j \/ i = flip j.
Proof.
  intros H. pose proof (Nat.div2_odd i) as Hi. pose proof (Nat.div2_odd j) as Hj.
  unfold flip. rewrite <- Nat.negb_odd.
  destruct (Nat.odd i), (Nat.odd j); cbn [Nat.b2n negb] in *; lia.
Qed.
Lemma flip_lt i n : i < 2 * n -> flip i < 2 * n.
Proof.
  intros H. unfold flip. destruct (Nat.even i) eqn:E; [|lia].
  apply Nat.even_spec in E. destruct E as [k E]. lia.
Qed.

Lemma div2_lt_42 i : i < 84 -> Nat.div2 i < 42.
Proof. intros H. pose proof (Nat.div2_odd i). destruct (Nat.odd i); cbn [Nat.b2n] in *; lia. Qed.

(** ** The inner loop *)
Lemma find_other_found same i ks j j' :
  j <> i -> find_other same i ks j = Some j' -> j' = j /\ forall k, In k ks -> same k = false.
Proof.
  intros Hj. induction ks as [|k ks IH]; cbn; intros H.
  - injection H as <-. split; [reflexivity|]. intros k [].
  - destruct (same k) eqn:E.
    + destruct (j =? i) eqn:Ej; [apply Nat.eqb_eq in Ej; contradiction|discriminate].
    + destruct (IH H) as [-> H2]. split; [reflexivity|]. intros k' [<-|Hk]; auto.
Qed.

Lemma find_other_some same i ks j :
  NoDup ks -> ~ In i ks -> find_other same i ks i = Some j ->
  (j = i /\ forall k, In k ks -> same k = false) \/
  (j <> i /\ In j ks /\ same j = true /\ forall k, In k ks -> same k = true -> k = j).
Proof.
  induction ks as [|k ks IH]; cbn; intros Hn Hi H.
  - injection H as <-. left. split; [reflexivity|]. intros k [].
  - inversion Hn as [|k0 ks0 Hk0 Hn']; subst. destruct (same k) eqn:E.
    + rewrite Nat.eqb_refl in H. assert (Hk : k <> i) by (intros ->; auto).
      destruct (find_other_found _ _ _ _ _ Hk H) as [-> Hff]. right.
      repeat split; auto. intros k' [<-|Hk'] Hs; [reflexivity|]. rewrite Hff in Hs by assumption. discriminate.
    + destruct (IH Hn') as [[-> Hf]|(Hj & Hin & Hs & Hu)]; auto.
      * left. split; [reflexivity|]. intros k' [<-|Hk']; auto.
      * right. repeat split; auto. intros k' [<-|Hk'] Hs'; [congruence|auto].
Qed.

Lemma find_other_complete same i ks j :
  NoDup ks -> ~ In i ks -> In j ks -> same j = true ->
  (forall k, In k ks -> same k = true -> k = j) -> find_other same i ks i = Some j.
Proof.
  intros Hn Hi Hj Hs Hu.
  assert (A : forall ks', ~ In i ks' -> (forall k, In k ks' -> same k = false) -> forall j',
             find_other same i ks' j' = Some j').
  { induction ks' as [|k ks' IH]; cbn; intros Hi' Hf j'; [reflexivity|].
    rewrite Hf by auto. apply IH; auto. }
  induction ks as [|k ks IH]; [destruct Hj|]. cbn. inversion Hn; subst.
  destruct (same k) eqn:E.
  - rewrite Nat.eqb_refl. assert (k = j) as -> by (apply Hu; cbn; auto).
    apply A; [cbn in Hi; auto|]. intros k' Hk'. destruct (same k') eqn:E'; [|reflexivity].
    assert (k' = j) by (apply Hu; cbn; auto). subst. contradiction.
  - destruct Hj as [->|Hj]; [congruence|]. cbn in Hi. apply IH; auto. intros k' Hk'. apply Hu. cbn; auto.
Qed.

(** ** The walk *)
Definition nx (step : nat -> verify_code + nat) (i : nat) : nat :=
  match step i with inl _ => i | inr j => flip j end.
Fixpoint iter (step : nat -> verify_code + nat) (t i : nat) : nat :=
  match t with O => i | S t' => iter step t' (nx step i) end.
Definition goes (step : nat -> verify_code + nat) (i : nat) : Prop :=
  match step i with inl _ => False | inr _ => True end.

Lemma iter_S step t i : iter step (S t) i = nx step (iter step t i).
Proof. revert i; induction t as [|t IH]; intros i; [reflexivity|]. cbn in *. apply IH. Qed.

Lemma goes_step step i : goes step i -> step i = inr (flip (nx step i)).
Proof. unfold goes, nx. destruct (step i); [intros []|]. intros _. rewrite flip_flip. reflexivity. Qed.

Lemma follow_ok step fuel i n :
  (forall i', step i' <> inl POW_OK) ->
  follow fuel step i n = Some POW_OK ->
  exists m, m > 0 /\ m + n = PROOFSIZE /\
    (forall t, t < m -> goes step (iter step t i)) /\
    (forall t, 0 < t < m -> iter step t i <> 0) /\
    iter step m i = 0.
Proof.
  intros Hs. revert i n. induction fuel as [|fuel IH]; cbn [follow]; intros i n H; [discriminate|].
  destruct (step i) as [c|j] eqn:E.
  - injection H as ->. destruct (Hs i E).
  - assert (Hnx : nx step i = flip j) by (unfold nx; rewrite E; reflexivity).
    assert (Hg : goes step i) by (unfold goes; rewrite E; exact I).
    destruct (flip j =? 0) eqn:E0.
    + apply Nat.eqb_eq in E0. destruct (S n =? PROOFSIZE) eqn:En; [|discriminate].
      apply Nat.eqb_eq in En. exists 1. repeat split; [lia|lia| | |].
      * intros t Ht. replace t with 0 by lia. exact Hg.
      * intros t Ht. lia.
      * cbn. rewrite Hnx. exact E0.
    + apply Nat.eqb_neq in E0. destruct (IH _ _ H) as (m & Hm & Hsum & H1 & H2 & H3).
      exists (S m). repeat split; [lia|lia| | |].
      * intros [|t] Ht; [exact Hg|]. cbn. rewrite Hnx. apply H1. lia.
      * intros [|t] Ht; [lia|]. cbn. rewrite Hnx. destruct t as [|t]; [exact E0|]. apply H2. lia.
      * cbn. rewrite Hnx. exact H3.
Qed.

Lemma follow_none step fuel i n :
  follow fuel step i n = None ->
  forall t, t < fuel -> goes step (iter step t i) /\ iter step (S t) i <> 0.
Proof.
  revert i n. induction fuel as [|fuel IH]; cbn [follow]; intros i n H t Ht; [lia|].
  destruct (step i) as [c|j] eqn:E; [discriminate|].
  assert (Hnx : nx step i = flip j) by (unfold nx; rewrite E; reflexivity).
  destruct (flip j =? 0) eqn:E0; [discriminate|]. apply Nat.eqb_neq in E0.
  destruct t as [|t].
  - cbn [iter]. split; [unfold goes; rewrite E; exact I|]. rewrite Hnx. exact E0.
  - pose proof (IH _ _ H t ltac:(lia)) as [H1 H2]. cbn [iter] in *. rewrite Hnx. split; assumption.
Qed.

(** ** Step functions whose partner relation is symmetric *)
Section Walk.
  Variable step : nat -> verify_code + nat.
  Notation f := (fun t => iter step t 0).

  Lemma iter_eq_fwd a b d i : iter step a i = iter step b i -> iter step (a + d) i = iter step (b + d) i.
  Proof.
    intros H. induction d as [|d IH]; [rewrite !Nat.add_0_r; exact H|].
    rewrite !Nat.add_succ_r, !iter_S, IH. reflexivity.
  Qed.

  (** until the first return the states are distinct *)
  Lemma nodup_return m :
    (forall t, 0 < t < m -> f t <> 0) -> f m = 0 ->
    forall a b, a < m -> b < m -> f a = f b -> a = b.
  Proof.
    intros Hn0 Hm.
    assert (A : forall a b, a < b -> b < m -> f a = f b -> False).
    { intros a b Hab Hb H. apply (iter_eq_fwd _ _ (m - b)) in H.
      replace (b + (m - b)) with m in H by lia. cbn beta in Hm. rewrite Hm in H.
      apply (Hn0 (a + (m - b))); [lia|exact H]. }
    intros a b Ha Hb H. destruct (lt_eq_lt_dec a b) as [[Hlt| ->]|Hlt]; auto; exfalso.
    - exact (A a b Hlt Hb H).
    - exact (A b a Hlt Ha (eq_sym H)).
  Qed.

  Hypothesis sym : forall i j, i < 84 -> step i = inr j -> j < 84 /\ j <> i /\ step j = inr i.

  Lemma walk_range m : (forall t, t < m -> goes step (f t)) -> forall t, t <= m -> f t < 84.
  Proof.
    intros Hg t Ht. induction t as [|t IH]; [cbn; lia|].
    cbn beta. rewrite iter_S. pose proof (goes_step _ _ (Hg t ltac:(lia))) as E.
    destruct (sym _ _ (IH ltac:(lia)) E) as (H1 & _).
    rewrite <- (flip_flip (nx step (iter step t 0))). change 84 with (2 * 42). apply flip_lt. exact H1.
  Qed.

  Lemma walk_back m a b :
    (forall t, t < m -> goes step (f t)) -> S a <= m -> S b <= m -> f (S a) = f (S b) -> f a = f b.
  Proof.
    intros Hg Ha Hb H.
    pose proof (goes_step _ _ (Hg a ltac:(lia))) as Ea. pose proof (goes_step _ _ (Hg b ltac:(lia))) as Eb.
    pose proof (walk_range m Hg a ltac:(lia)) as Ra. pose proof (walk_range m Hg b ltac:(lia)) as Rb.
    cbn beta in *. rewrite !iter_S in H.
    destruct (sym _ _ Ra Ea) as (_ & _ & Sa). destruct (sym _ _ Rb Eb) as (_ & _ & Sb).
    rewrite H in Sa. congruence.
  Qed.

  (** The loop never runs for more than 84 iterations. *)
  Lemma follow_terminates : follow 85 step 0 0 <> None.
  Proof.
    intros H. pose proof (follow_none _ _ _ _ H) as Hf.
    assert (Hg : forall t, t < 85 -> goes step (f t)) by (intros t Ht; apply Hf; exact Ht).
    assert (Hinj : forall a b, a < b -> b <= 84 -> f a <> f b).
    { induction a as [|a IH]; intros b Hab Hb E.
      - destruct b as [|b]; [lia|]. destruct (Hf b ltac:(lia)) as [_ H2]. apply H2. symmetry. exact E.
      - destruct b as [|b]; [lia|].
        apply (IH b); [lia|lia|]. apply (walk_back 85); [exact Hg|lia|lia|exact E]. }
    assert (Hnd : NoDup (map f (seq 0 85))).
    { assert (A : forall l, (forall x, In x l -> x <= 84) -> NoDup l -> NoDup (map f l)).
      { induction l as [|x l IH]; cbn; intros Hl Hn; constructor; inversion Hn; subst.
        - intros Hin. apply in_map_iff in Hin as (y & E & Hy).
          destruct (lt_eq_lt_dec x y) as [[Hlt| ->]|Hlt]; auto.
          + apply (Hinj x y Hlt (Hl y (or_intror Hy))). symmetry. exact E.
          + apply (Hinj y x Hlt (Hl x (or_introl eq_refl)) E).
        - apply IH; auto. }
      apply A; [|apply seq_NoDup]. intros x Hx. apply in_seq in Hx. lia. }
    apply (NoDup_incl_length (l' := seq 0 84)) in Hnd.
    - rewrite map_length, !seq_length in Hnd. lia.
    - intros y Hy. apply in_map_iff in Hy as (t & <- & Ht). apply in_seq in Ht. apply in_seq.
      pose proof (walk_range 85 Hg t ltac:(lia)) as R. cbn beta in R. lia.
  Qed.

  Section Returned.
    Variable m : nat.
    Hypothesis Hgo : forall t, t < m -> goes step (f t).
    Hypothesis Hn0 : forall t, 0 < t < m -> f t <> 0.
    Hypothesis Hret : f m = 0.

    Lemma partner t : t < m -> step (f t) = inr (flip (f (S t))).
    Proof. intros Ht. cbn beta. rewrite iter_S. apply goes_step. exact (Hgo t Ht). Qed.

    (** no edge is walked in both directions *)
    Lemma no_reverse : forall d a b, b = a + d -> b < m -> f b <> flip (f a).
    Proof.
      intros d. induction d as [d IH] using lt_wf_ind. intros a b -> Hb E.
      destruct d as [|[|d]].
      - rewrite Nat.add_0_r in E. symmetry in E. exact (flip_neq _ E).
      - rewrite Nat.add_1_r in *. assert (Ha : a < m) by lia.
        pose proof (partner a Ha) as P. pose proof (walk_range m Hgo a ltac:(lia)) as R.
        destruct (sym _ _ R P) as (_ & N & _). apply N. rewrite E. apply flip_flip.
      - (* f (a + S (S d)) = flip (f a): the partner of f (a + S d) is f a *)
        assert (Hb1 : a + S d < m) by lia.
        pose proof (partner (a + S d) Hb1) as P.
        replace (S (a + S d)) with (a + S (S d)) in P by lia. cbn beta in P, E. rewrite E, flip_flip in P.
        pose proof (walk_range m Hgo (a + S d) ltac:(lia)) as R.
        destruct (sym _ _ R P) as (_ & _ & S1).
        assert (Ha : a < m) by lia. pose proof (partner a Ha) as Pa. cbn beta in Pa. rewrite S1 in Pa.
        assert (Pb : iter step (a + S d) 0 = flip (iter step (S a) 0)) by congruence. apply (IH d ltac:(lia) (S a) (a + S d)); [lia|lia|]. exact Pb.
    Qed.

    Lemma edges_distinct a b : a < m -> b < m -> Nat.div2 (f a) = Nat.div2 (f b) -> a = b.
    Proof.
      intros Ha Hb H. destruct (same_edge _ _ H) as [E|E].
      - exact (nodup_return m Hn0 Hret a b Ha Hb E).
      - exfalso. destruct (le_lt_dec a b) as [Hle|Hlt].
        + apply (no_reverse (b - a) a b); [lia|lia|]. cbn beta. rewrite E, flip_flip. reflexivity.
        + apply (no_reverse (a - b) b a); [lia|lia|]. exact E.
    Qed.

    (** a walk never meets, later, another endpoint it could have taken as partner *)
    Lemma heads_unrelated a b :
      a < m -> b < m -> step (f a) = inr (f b) -> False.
    Proof.
      intros Ha Hb E. assert (P : iter step b 0 = flip (iter step (S a) 0)).
      { pose proof (partner a Ha) as P. cbn beta in P, E. rewrite E in P. congruence. }
      (* f b = flip (f (S a)) *)
      destruct (Nat.eq_dec (S a) m) as [Em|Em].
      - rewrite Em in P. cbn beta in P, Hret. rewrite Hret in P.
        apply (no_reverse (b - 0) 0 b); [lia|lia|]. exact P.
      - assert (Ha1 : S a < m) by lia.
        destruct (le_lt_dec (S a) b) as [Hle|Hlt].
        + apply (no_reverse (b - S a) (S a) b); [lia|lia|]. exact P.
        + apply (no_reverse (S a - b) b (S a)); [lia|lia|]. cbn beta in P |- *. rewrite P, flip_flip. reflexivity.
    Qed.
  End Returned.
End Walk.

(** ** Assembling the walk *)
Definition walk_of (lab : nat -> N * bool) (f : nat -> nat) : list (N * bool) :=
  map (fun t => lab (f t)) (seq 0 42).

Lemma map_inj_nodup {A} (g : nat -> A) n :
  (forall a b, a < n -> b < n -> g a = g b -> a = b) -> NoDup (map g (seq 0 n)).
Proof.
  intros Hg.
  assert (B : forall l, (forall x, In x l -> x < n) -> NoDup l -> NoDup (map g l)).
  { induction l as [|x l IH]; cbn; intros Hl Hn; constructor; inversion Hn as [|x0 l0 Hx Hn']; subst.
    - intros Hin. apply in_map_iff in Hin as (y & E & Hy). apply Hg in E; [subst; contradiction| |]; apply Hl; auto.
    - apply IH; auto. }
  apply B; [|apply seq_NoDup]. intros x Hx. apply in_seq in Hx. lia.
Qed.

Lemma nth_error_walk lab f t s :
  nth_error (walk_of lab f) t = Some s -> t < 42 /\ s = lab (f t).
Proof.
  intros H. assert (Ht : t < 42).
  { assert (E : length (walk_of lab f) = 42) by (unfold walk_of; rewrite map_length, seq_length; reflexivity).
    rewrite <- E. apply nth_error_Some. rewrite H. discriminate. }
  split; [exact Ht|]. unfold walk_of in H.
  rewrite (map_nth_error _ t (seq 0 42) (d := t)) in H; [congruence|].
  rewrite (nth_error_nth' _ 0) by (rewrite seq_length; exact Ht). rewrite seq_nth by exact Ht. reflexivity.
Qed.
Lemma walk_length lab f : length (walk_of lab f) = 42.
Proof. unfold walk_of. rewrite map_length, seq_length. reflexivity. Qed.

Lemma next_index t : t < 42 -> (S t = 42 /\ (t + 1) mod 42 = 0) \/ (S t < 42 /\ (t + 1) mod 42 = S t).
Proof.
  intros Ht. destruct (Nat.eq_dec (S t) 42) as [E|E].
  - left. split; [exact E|]. replace (t + 1) with 42 by lia. reflexivity.
  - right. split; [lia|]. rewrite Nat.mod_small by lia. lia.
Qed.

Lemma assemble {V} (ends : N -> V * V) (meets : V -> V -> Prop) (place : V -> V) (edges : list N)
    (lab : nat -> N * bool) (tl hd : nat -> V) (f : nat -> nat) :
  length edges = 42 ->
  (forall t, t < 42 -> In (fst (lab (f t))) edges) ->
  (forall a b, a < 42 -> b < 42 -> fst (lab (f a)) = fst (lab (f b)) -> a = b) ->
  f 42 = f 0 ->
  (forall t, t < 42 -> walked ends (lab (f t)) = (tl (f t), hd (f t))) ->
  (forall t, t < 42 -> meets (hd (f t)) (tl (f (S t)))) ->
  (forall a b, a < 42 -> b < 42 -> place (hd (f a)) = place (hd (f b)) -> a = b) ->
  simple_cycle_by ends meets place (walk_of lab f) edges.
Proof.
  intros Hlen Hin Hinj Hclose Hw Hm Hp. unfold simple_cycle_by. split; [|split].
  - unfold walk_of. rewrite map_map. apply NoDup_Permutation_bis.
    + apply map_inj_nodup. exact Hinj.
    + rewrite map_length, seq_length. lia.
    + intros e He. apply in_map_iff in He as (t & <- & Ht). apply Hin. apply in_seq in Ht. lia.
  - intros t s s' H1 H2. rewrite walk_length in H2.
    apply nth_error_walk in H1 as [Ht ->]. apply nth_error_walk in H2 as [Ht' ->].
    rewrite !Hw by assumption. cbn [fst snd].
    destruct (next_index t Ht) as [[E1 E2]|[E1 E2]]; rewrite E2.
    + pose proof (Hm t Ht) as M. rewrite E1, Hclose in M. exact M.
    + exact (Hm t Ht).
  - unfold walk_of. rewrite map_map. apply map_inj_nodup. intros a b Ha Hb H.
    rewrite !Hw in H by assumption. exact (Hp a b Ha Hb H).
Qed.

(** ** Steps that look for the only other endpoint with the same key in the same class *)
Section Class.
  Variable ks : nat -> list nat.
  Variable cls : nat -> nat -> bool.
  Hypothesis ks_in : forall i k, i < 84 -> (In k (ks i) <-> k < 84 /\ k <> i /\ cls i k = true).
  Hypothesis ks_nodup : forall i, i < 84 -> NoDup (ks i).
  Hypothesis cls_sym : forall i k, cls i k = true -> cls k i = true.
  Hypothesis cls_trans : forall i k l, cls i k = true -> cls k l = true -> cls i l = true.
  Variable key : nat -> N.
  Variable bad : nat -> nat -> bool.
  Hypothesis bad_sym : forall i j, bad i j = bad j i.

  Definition cstep (i : nat) : verify_code + nat :=
    match find_other (fun k => N.eqb (key k) (key i)) i (ks i) i with
    | None => inl POW_BRANCH
    | Some j => if (j =? i) || bad i j then inl POW_DEAD_END else inr j
    end.

  Lemma cstep_not_ok i : cstep i <> inl POW_OK.
  Proof.
    unfold cstep. destruct (find_other _ _ _ _); [|discriminate].
    destruct (_ || _); discriminate.
  Qed.

  Lemma cstep_some i j :
    i < 84 -> cstep i = inr j ->
    j < 84 /\ j <> i /\ cls i j = true /\ key j = key i /\ bad i j = false /\
    forall k, k < 84 -> k <> i -> cls i k = true -> key k = key i -> k = j.
  Proof.
    intros Hi H. unfold cstep in H.
    destruct (find_other _ _ _ _) as [j'|] eqn:E; [|discriminate].
    destruct ((j' =? i) || bad i j') eqn:B; [discriminate|]. injection H as ->.
    apply orb_false_iff in B as [B1 B2]. apply Nat.eqb_neq in B1.
    apply find_other_some in E; [|apply ks_nodup; exact Hi|].
    2:{ intros Hin. apply ks_in in Hin; [|exact Hi]. tauto. }
    destruct E as [[E _]|(_ & Hin & Hs & Hu)]; [contradiction|].
    apply ks_in in Hin; [|exact Hi]. destruct Hin as (H1 & _ & H3). apply N.eqb_eq in Hs.
    repeat split; auto. intros k Hk Hki Hc Hkey. apply Hu; [apply ks_in; auto|]. apply N.eqb_eq. exact Hkey.
  Qed.

  Lemma cstep_sym i j : i < 84 -> cstep i = inr j -> j < 84 /\ j <> i /\ cstep j = inr i.
  Proof.
    intros Hi H. destruct (cstep_some _ _ Hi H) as (Hj & Hji & Hc & Hk & Hb & Hu).
    split; [exact Hj|]. split; [exact Hji|]. unfold cstep.
    rewrite (find_other_complete _ j (ks j) i).
    - rewrite bad_sym, Hb. replace (i =? j) with false by (symmetry; apply Nat.eqb_neq; auto). reflexivity.
    - apply ks_nodup; exact Hj.
    - intros Hin. apply ks_in in Hin; [|exact Hj]. tauto.
    - apply ks_in; auto.
    - apply N.eqb_eq. auto.
    - intros k Hin Hs. apply ks_in in Hin; [|exact Hj]. destruct Hin as (K1 & K2 & K3). apply N.eqb_eq in Hs.
      destruct (Nat.eq_dec k i) as [->|Hki]; [reflexivity|].
      destruct K2. apply Hu; auto; [eauto|congruence].
  Qed.

  Context {V : Type}.
  Variables (ends : N -> V * V) (meets : V -> V -> Prop) (place : V -> V) (ep : nat -> V).
  Variable edges : list N.
  Hypothesis Hlen : length edges = 42.
  Hypothesis Hnd : NoDup edges.
  Hypothesis Hends : forall i, i < 84 ->
    walked ends (nth (Nat.div2 i) edges 0%N, Nat.even i) = (ep (flip i), ep i).
  Hypothesis Hmeets : forall i j, i < 84 -> j < 84 -> i <> j -> cls i j = true -> key j = key i -> bad i j = false ->
    meets (ep i) (ep j).
  Hypothesis Hplace : forall i j, i < 84 -> j < 84 -> place (ep i) = place (ep j) -> cls i j = true /\ key j = key i.

  Lemma class_sound fuel :
    follow fuel cstep 0 0 = Some POW_OK -> simple_cycle ends meets place edges.
  Proof.
    intros H. apply follow_ok in H; [|exact cstep_not_ok].
    destruct H as (m & Hm0 & Hm & Hg & Hn0 & Hret).
    assert (m = 42) as -> by (unfold PROOFSIZE in Hm; lia). clear Hm0 Hm.
    set (f := fun t => iter cstep t 0).
    assert (R : forall t, t <= 42 -> f t < 84) by (intros t Ht; apply (walk_range cstep cstep_sym 42 Hg t Ht)).
    exists (walk_of (fun i => (nth (Nat.div2 i) edges 0%N, Nat.even i)) f).
    apply (assemble ends meets place edges _ (fun i => ep (flip i)) ep f); cbn [fst].
    - exact Hlen.
    - intros t Ht. apply nth_In. rewrite Hlen. pose proof (R t ltac:(lia)).
      apply div2_lt_42. assumption.
    - intros a b Ha Hb E.
      pose proof (R a ltac:(lia)) as Ra. pose proof (R b ltac:(lia)) as Rb.
      apply (edges_distinct cstep cstep_sym 42 Hg Hn0 Hret a b Ha Hb).
      apply (proj1 (NoDup_nth edges 0%N) Hnd); [| |exact E]; rewrite Hlen; apply div2_lt_42; assumption.
    - exact Hret.
    - intros t Ht. apply Hends. apply R. lia.
    - intros t Ht. pose proof (partner cstep 42 Hg t Ht) as P. fold f in P.
      pose proof (R t ltac:(lia)) as Rt.
      destruct (cstep_some _ _ Rt P) as (A1 & A2 & A3 & A4 & A5 & _).
      apply Hmeets; auto.
    - intros a b Ha Hb E. destruct (Nat.eq_dec a b) as [|Hab]; [assumption|exfalso].
      pose proof (R a ltac:(lia)) as Ra. pose proof (R b ltac:(lia)) as Rb.
      destruct (Hplace _ _ Ra Rb E) as [C1 C2].
      pose proof (partner cstep 42 Hg a Ha) as P. fold f in P.
      destruct (cstep_some _ _ Ra P) as (_ & _ & _ & _ & _ & U).
      assert (Hne : f b <> f a).
      { intros Eq. apply Hab. apply (nodup_return cstep 42 Hn0 Hret a b Ha Hb). symmetry. exact Eq. }
      apply (heads_unrelated cstep cstep_sym 42 Hg Hn0 Hret a b Ha Hb).
      change (cstep (f a) = inr (f b)). rewrite P. f_equal. symmetry. apply U; auto.
  Qed.

  Lemma class_terminates : follow 85 cstep 0 0 <> None.
  Proof. apply follow_terminates. exact cstep_sym. Qed.
End Class.

(** ** Membership of the index sequences *)
Definition same_parity (i k : nat) : bool := Bool.eqb (Nat.even i) (Nat.even k).

Lemma even_mod n : Nat.even n = (n mod 2 =? 0).
Proof.
  destruct (Nat.even n) eqn:E.
  - apply Nat.even_spec in E. destruct E as [m ->]. symmetry. apply Nat.eqb_eq. lia.
  - assert (O : Nat.odd n = true) by (unfold Nat.odd; rewrite E; reflexivity).
    apply Nat.odd_spec in O. destruct O as [m ->]. symmetry. apply Nat.eqb_neq. lia.
Qed.

(** What the walks need to know about the indices they compare with. *)
Definition ks_good (ks : nat -> list nat) (cls : nat -> nat -> bool) : Prop :=
  (forall i k, i < 84 -> (In k (ks i) <-> k < 84 /\ k <> i /\ cls i k = true)) /\
  (forall i, i < 84 -> NoDup (ks i)).

Lemma ks_cyclic_nodup d count i : (forall t t', 1 <= t <= count -> 1 <= t' <= count ->
  (i + d * t) mod 84 = (i + d * t') mod 84 -> t = t') -> NoDup (ks_cyclic d count i).
Proof.
  intros H. unfold ks_cyclic. change (2 * PROOFSIZE) with 84.
  assert (G : forall n a, (forall t, In t (seq a n) -> 1 <= t <= count) -> NoDup (map (fun t => (i + d * t) mod 84) (seq a n))).
  { induction n as [|n IH]; intros a Ha; cbn [seq map]; [constructor|]. constructor.
    - intros Hin. apply in_map_iff in Hin. destruct Hin as [t [E Ht]].
      assert (t = a). { apply H; [apply Ha; right; exact Ht|apply Ha; left; reflexivity|exact E]. }
      subst t. apply in_seq in Ht. lia.
    - apply IH. intros t Ht. apply Ha. right. exact Ht. }
  apply G. intros t Ht. apply in_seq in Ht. lia.
Qed.
Lemma ks_two : ks_good (ks_cyclic 2 41) same_parity.
Proof.
  split.
  - intros i k Hi. unfold ks_cyclic, same_parity. change (2 * PROOFSIZE) with 84. rewrite in_map_iff, !even_mod. split.
    + intros [t [<- Ht]]. apply in_seq in Ht. split; [apply Nat.mod_upper_bound; discriminate|]. split; [lia|].
      apply eqb_true_iff. apply Bool.eq_iff_eq_true. rewrite !Nat.eqb_eq. lia.
    + intros [Hk [NE P]]. apply eqb_prop in P. apply Bool.eq_iff_eq_true in P. rewrite !Nat.eqb_eq in P.
      destruct (Nat.lt_ge_cases i k) as [L|L].
      * exists ((k - i) / 2). split; [|apply in_seq; lia]. replace (i + 2 * ((k - i) / 2)) with k by lia. apply Nat.mod_small, Hk.
      * exists ((k + 84 - i) / 2). split; [|apply in_seq; lia].
        replace (i + 2 * ((k + 84 - i) / 2)) with (k + 1 * 84) by lia. rewrite Nat.mod_add by discriminate. apply Nat.mod_small, Hk.
  - intros i Hi. apply ks_cyclic_nodup. intros t t' H1 H2 E. lia.
Qed.
Lemma ks_one : ks_good (ks_cyclic 1 83) (fun _ _ => true).
Proof.
  split.
  - intros i k Hi. unfold ks_cyclic. change (2 * PROOFSIZE) with 84. rewrite in_map_iff. split.
    + intros [t [<- Ht]]. apply in_seq in Ht. split; [apply Nat.mod_upper_bound; discriminate|]. split; [lia|reflexivity].
    + intros [Hk [NE _]]. destruct (Nat.lt_ge_cases i k) as [L|L].
      * exists (k - i). split; [|apply in_seq; lia]. replace (i + 1 * (k - i)) with k by lia. apply Nat.mod_small, Hk.
      * exists (k + 84 - i). split; [|apply in_seq; lia].
        replace (i + 1 * (k + 84 - i)) with (k + 1 * 84) by lia. rewrite Nat.mod_add by discriminate. apply Nat.mod_small, Hk.
  - intros i Hi. apply ks_cyclic_nodup. intros t t' H1 H2 E. lia.
Qed.

(** ** The edge scan *)
Lemma scan_sorted mask : forall edges prev, scan_edges mask prev edges = POW_OK ->
  Forall (fun e => (e <= mask)%N) edges /\ StronglySorted N.lt edges /\
  match prev with Some p => Forall (N.lt p) edges | None => True end.
Proof.
  induction edges as [|e rest IH]; cbn; intros prev H.
  - repeat split; constructor || (destruct prev; auto).
  - destruct (mask <? e)%N eqn:E; [discriminate|]. apply N.ltb_ge in E.
    assert (A : scan_edges mask (Some e) rest = POW_OK /\ match prev with Some p => (p < e)%N | None => True end).
    { destruct prev as [p|]; [|auto]. destruct (e <=? p)%N eqn:E2; [discriminate|]. apply N.leb_gt in E2. auto. }
    destruct A as [A B]. destruct (IH _ A) as (H1 & H2 & H3). split; [constructor; auto|]. split; [constructor; auto|].
    destruct prev as [p|]; [|exact I]. constructor; [exact B|].
    eapply Forall_impl; [|exact H3]. cbn. intros x Hx. lia.
Qed.

Lemma sorted_nodup (l : list N) : StronglySorted N.lt l -> NoDup l.
Proof.
  induction 1 as [|x l Hs IH Hf]; constructor; auto.
  intros Hin. rewrite Forall_forall in Hf. specialize (Hf x Hin). lia.
Qed.

Lemma mask_lt b e : (e <= N.shiftl 1 b - 1 -> e < 2 ^ b)%N.
Proof. rewrite N.shiftl_1_l. pose proof (N.pow_nonzero 2 b ltac:(lia)). lia. Qed.

(** ** Cuckatoo, Cuckaroo, Cuckarooz *)
Lemma uvs_ends_walked (first second edges : list N) (u v : N -> N) i :
  length edges = 42 -> first = map u edges -> second = map v edges -> i < 84 ->
  walked (bi_ends u v) (nth (Nat.div2 i) edges 0%N, Nat.even i) =
  ((Nat.odd (flip i), uvs_of first second (flip i)), (Nat.odd i, uvs_of first second i)).
Proof.
  intros Hlen -> -> Hi. pose proof (div2_lt_42 i Hi) as Hd.
  unfold walked, bi_ends, uvs_of. cbn [fst snd].
  rewrite !flip_div2, flip_even, <- !Nat.negb_even, flip_even.
  assert (U : forall g : N -> N, nth (Nat.div2 i) (map g edges) 0%N = g (nth (Nat.div2 i) edges 0%N)).
  { intros g. rewrite (nth_indep _ 0%N (g 0%N)) by (rewrite map_length; lia). apply map_nth. }
  rewrite !U. destruct (Nat.even i); reflexivity.
Qed.

Lemma uvs_ends_walked_flat (first second edges : list N) (u v : N -> N) i :
  length edges = 42 -> first = map u edges -> second = map v edges -> i < 84 ->
  walked (fun e => (u e, v e)) (nth (Nat.div2 i) edges 0%N, Nat.even i) =
  (uvs_of first second (flip i), uvs_of first second i).
Proof.
  intros Hlen -> -> Hi. pose proof (div2_lt_42 i Hi) as Hd.
  unfold walked, uvs_of. cbn [fst snd].
  rewrite !flip_div2, flip_even.
  assert (U : forall g : N -> N, nth (Nat.div2 i) (map g edges) 0%N = g (nth (Nat.div2 i) edges 0%N)).
  { intros g. rewrite (nth_indep _ 0%N (g 0%N)) by (rewrite map_length; lia). apply map_nth. }
  rewrite !U. destruct (Nat.even i); reflexivity.
Qed.

Lemma same_parity_sym i k : same_parity i k = true -> same_parity k i = true.
Proof. unfold same_parity. intros H. apply Bool.eqb_prop in H. rewrite H. apply Bool.eqb_reflx. Qed.
Lemma same_parity_trans i k l : same_parity i k = true -> same_parity k l = true -> same_parity i l = true.
Proof. unfold same_parity. intros H1 H2. apply Bool.eqb_prop in H1, H2. rewrite H1, H2. apply Bool.eqb_reflx. Qed.
Lemma same_parity_odd i k : same_parity i k = true <-> Nat.odd i = Nat.odd k.
Proof.
  unfold same_parity. rewrite <- !Nat.negb_even. split.
  - intros H. apply Bool.eqb_prop in H. rewrite H. reflexivity.
  - destruct (Nat.even i), (Nat.even k); cbn; congruence.
Qed.

Lemma toggle_bit x y : N.shiftr x 1 = N.shiftr y 1 -> x <> y -> y = N.lxor x 1.
Proof.
  intros H Hne. apply N.bits_inj. intros k. rewrite N.lxor_spec.
  destruct (N.eq_dec k 0) as [->|Hk].
  - change (N.testbit 1 0) with true. rewrite xorb_true_r.
    destruct (Bool.bool_dec (N.testbit y 0) (N.testbit x 0)) as [E|E].
    + exfalso. apply Hne. apply N.bits_inj. intros k.
      destruct (N.eq_dec k 0) as [->|Hk]; [auto|].
      replace k with (k - 1 + 1)%N by lia. rewrite <- !N.shiftr_spec by lia. rewrite H. reflexivity.
    + destruct (N.testbit y 0), (N.testbit x 0); cbn; congruence.
  - assert (N.testbit 1 k = false) as ->.
    { destruct (N.testbit 1 k) eqn:E; [|reflexivity]. exfalso.
      assert (A : (k <= N.log2 1)%N). { destruct (N.le_gt_cases k (N.log2 1)) as [A|A]; [exact A|].
        rewrite N.bits_above_log2 in E by exact A. discriminate. }
      change (N.log2 1) with 0%N in A. lia. }
    rewrite xorb_false_r. replace k with (k - 1 + 1)%N by lia.
    rewrite <- !N.shiftr_spec by lia. rewrite H. reflexivity.
Qed.

Lemma shiftr_div2 x : N.shiftr x 1 = (x / 2)%N.
Proof. rewrite N.shiftr_div_pow2. reflexivity. Qed.

Definition cuckatoo_ends (keys : sip) (bits : N) : N -> (bool * N) * (bool * N) :=
  bi_ends (fun e => sipnode keys e 0 (N.shiftl 1 bits - 1))
          (fun e => sipnode keys e 1 (N.shiftl 1 bits - 1)).

Lemma cuckatoo_step_c uvs i :
  cuckatoo_step uvs i =
  cstep (ks_cyclic 2 41) (fun k => N.shiftr (uvs k) 1) (fun i j => N.eqb (uvs j) (uvs i)) i.
Proof. unfold cuckatoo_step, cstep. destruct (find_other _ _ _ _); reflexivity. Qed.

Lemma follow_ext s1 s2 : (forall i, s1 i = s2 i) -> forall fuel i n, follow fuel s1 i n = follow fuel s2 i n.
Proof.
  intros H. induction fuel as [|f IH]; intros i n; [reflexivity|]. cbn [follow]. rewrite H.
  destruct (s2 i); [reflexivity|]. destruct (_ =? 0); [reflexivity|]. apply IH.
Qed.

Lemma cuckatoo_ok_sound fuel edges keys bits :
  length edges = 42 ->
  verify_cuckatoo fuel edges keys bits = Some POW_OK ->
  proof_shape (2 ^ bits) edges /\
  simple_cycle (cuckatoo_ends keys bits) paired pair_place edges.
Proof.
  intros Hlen H. unfold verify_cuckatoo in H.
  destruct (scan_edges (N.shiftl 1 bits - 1) None edges) eqn:E; try discriminate.
  apply scan_sorted in E as (Hmask & Hsort & _).
  destruct (N.lor _ _ =? 0)%N; [|discriminate].
  split.
  { split; [exact Hlen|]. split; [exact Hsort|]. eapply Forall_impl; [|exact Hmask]. cbn. intros e. apply mask_lt. }
  set (us := map _ edges) in H. set (vs := map _ edges) in H.
  destruct ks_two as [K1 K2].
  rewrite (follow_ext _ _ (cuckatoo_step_c (uvs_of us vs))) in H.
  eapply (class_sound (ks_cyclic 2 41) same_parity K1 K2 same_parity_sym same_parity_trans
           (fun k => N.shiftr (uvs_of us vs k) 1)
           (fun i j => N.eqb (uvs_of us vs j) (uvs_of us vs i)) (fun i j => N.eqb_sym _ _)
           (cuckatoo_ends keys bits) paired pair_place
           (fun i => (Nat.odd i, uvs_of us vs i)) edges Hlen (sorted_nodup _ Hsort)); [| | |exact H].
  - intros i Hi. apply uvs_ends_walked; auto.
  - intros i j _ _ _ Hc Hk Hb. unfold paired. cbn [fst snd]. split; [apply same_parity_odd; exact Hc|].
    apply N.eqb_neq in Hb. apply toggle_bit; auto.
  - intros i j _ _ Hp. unfold pair_place in Hp. cbn [fst snd] in Hp.
    injection Hp as P1 P2. split; [apply same_parity_odd; exact P1|]. rewrite !shiftr_div2. auto.
Qed.

Lemma cuckatoo_terminates edges keys bits : verify_cuckatoo 85 edges keys bits <> None.
Proof.
  unfold verify_cuckatoo. destruct (scan_edges _ _ _); try discriminate.
  destruct (N.lor _ _ =? 0)%N; [|discriminate].
  destruct ks_two as [K1 K2].
  rewrite (follow_ext _ _ (cuckatoo_step_c _)).
  exact (class_terminates (ks_cyclic 2 41) same_parity K1 K2 same_parity_sym same_parity_trans
           _ (fun i j => N.eqb (uvs_of _ _ j) (uvs_of _ _ i)) (fun i j => N.eqb_sym _ _)).
Qed.

Definition cuckaroo_ends (keys : sip) (bits : N) : N -> (bool * N) * (bool * N) :=
  bi_ends (fun e => N.land (sipblock 21 keys e) (N.shiftl 1 bits - 1))
          (fun e => N.land (N.shiftr (sipblock 21 keys e) 32) (N.shiftl 1 bits - 1)).

Lemma cuckaroo_step_c uvs i :
  cuckaroo_step uvs i = cstep (ks_cyclic 2 41) uvs (fun _ _ => false) i.
Proof. unfold cuckaroo_step, cstep. destruct (find_other _ _ _ _); [|reflexivity]. rewrite orb_false_r. reflexivity. Qed.

Lemma cuckaroo_ok_sound fuel edges keys bits :
  length edges = 42 ->
  verify_cuckaroo fuel edges keys bits = Some POW_OK ->
  proof_shape (2 ^ bits) edges /\
  simple_cycle (cuckaroo_ends keys bits) eq (fun x => x) edges.
Proof.
  intros Hlen H. unfold verify_cuckaroo in H.
  destruct (scan_edges (N.shiftl 1 bits - 1) None edges) eqn:E; try discriminate.
  apply scan_sorted in E as (Hmask & Hsort & _).
  destruct (N.lor _ _ =? 0)%N; [|discriminate].
  split.
  { split; [exact Hlen|]. split; [exact Hsort|]. eapply Forall_impl; [|exact Hmask]. cbn. intros e. apply mask_lt. }
  set (us := map _ edges) in H. set (vs := map _ edges) in H.
  destruct ks_two as [K1 K2].
  rewrite (follow_ext _ _ (cuckaroo_step_c (uvs_of us vs))) in H.
  eapply (class_sound (ks_cyclic 2 41) same_parity K1 K2 same_parity_sym same_parity_trans
           (uvs_of us vs) (fun _ _ => false) (fun i j => eq_refl)
           (cuckaroo_ends keys bits) eq (fun x => x)
           (fun i => (Nat.odd i, uvs_of us vs i)) edges Hlen (sorted_nodup _ Hsort)); [| | |exact H].
  - intros i Hi. apply uvs_ends_walked; auto.
  - intros i j _ _ _ Hc Hk Hb. f_equal; [apply same_parity_odd; exact Hc|auto].
  - intros i j _ _ Hp. injection Hp as P1 P2. split; [apply same_parity_odd; exact P1|auto].
Qed.

Lemma cuckaroo_terminates edges keys bits : verify_cuckaroo 85 edges keys bits <> None.
Proof.
  unfold verify_cuckaroo. destruct (scan_edges _ _ _); try discriminate.
  destruct (N.lor _ _ =? 0)%N; [|discriminate].
  destruct ks_two as [K1 K2].
  rewrite (follow_ext _ _ (cuckaroo_step_c _)).
  exact (class_terminates (ks_cyclic 2 41) same_parity K1 K2 same_parity_sym same_parity_trans
           _ (fun _ _ => false) (fun i j => eq_refl)).
Qed.

Definition cuckarooz_ends (keys : sip) : N -> N * N :=
  fun e => (N.land (sipblock_suffix keys e) (N.shiftl 1 30 - 1),
            N.land (N.shiftr (sipblock_suffix keys e) 32) (N.shiftl 1 30 - 1)).

Lemma cuckarooz_step_c uvs i :
  cuckarooz_step uvs i = cstep (ks_cyclic 1 83) uvs (fun _ _ => false) i.
Proof. unfold cuckarooz_step, cstep. destruct (find_other _ _ _ _); [|reflexivity]. rewrite orb_false_r. reflexivity. Qed.

Lemma cuckarooz_ok_sound fuel edges keys :
  length edges = 42 ->
  verify_cuckarooz fuel edges keys = Some POW_OK ->
  proof_shape (2 ^ 29) edges /\
  simple_cycle (cuckarooz_ends keys) eq (fun x => x) edges.
Proof.
  intros Hlen H. unfold verify_cuckarooz in H.
  destruct (scan_edges (N.shiftl 1 29 - 1) None edges) eqn:E; try discriminate.
  apply scan_sorted in E as (Hmask & Hsort & _).
  destruct (xor_list _ _ =? 0)%N; [|discriminate].
  split.
  { split; [exact Hlen|]. split; [exact Hsort|]. eapply Forall_impl; [|exact Hmask]. cbn beta. intros e. apply mask_lt. }
  set (us := map _ edges) in H. set (vs := map _ edges) in H.
  destruct ks_one as [K1 K2].
  rewrite (follow_ext _ _ (cuckarooz_step_c (uvs_of us vs))) in H.
  eapply (class_sound (ks_cyclic 1 83) (fun _ _ => true) K1 K2 (fun _ _ _ => eq_refl) (fun _ _ _ _ _ => eq_refl)
           (uvs_of us vs) (fun _ _ => false) (fun i j => eq_refl)
           (cuckarooz_ends keys) eq (fun x => x)
           (uvs_of us vs) edges Hlen (sorted_nodup _ Hsort)); [| | |exact H].
  - intros i Hi. apply (uvs_ends_walked_flat us vs edges); auto.
  - intros i j _ _ _ Hc Hk Hb. auto.
  - intros i j _ _ Hp. auto.
Qed.

Lemma cuckarooz_terminates edges keys : verify_cuckarooz 85 edges keys <> None.
Proof.
  unfold verify_cuckarooz. destruct (scan_edges _ _ _); try discriminate.
  destruct (xor_list _ _ =? 0)%N; [|discriminate].
  destruct ks_one as [K1 K2].
  rewrite (follow_ext _ _ (cuckarooz_step_c _)).
  exact (class_terminates (ks_cyclic 1 83) (fun _ _ => true) K1 K2 (fun _ _ _ => eq_refl) (fun _ _ _ _ _ => eq_refl)
           _ (fun _ _ => false) (fun i j => eq_refl)).
Qed.

(** ** Cuckarood *)
Lemma rood_scan_ok : forall edges prev d0 d1 e0 e1,
  rood_scan prev edges d0 d1 = (POW_OK, (e0, e1)) ->
  e0 = d0 ++ filter N.even edges /\ e1 = d1 ++ filter N.odd edges /\
  (length d0 <= 21 -> length e0 <= 21) /\ (length d1 <= 21 -> length e1 <= 21) /\
  Forall (fun e => (e < 2 ^ 29)%N) edges /\ StronglySorted N.lt edges /\
  match prev with Some p => Forall (N.lt p) edges | None => True end.
Proof.
  induction edges as [|e rest IH]; intros prev d0 d1 e0 e1 H.
  - cbn in H. injection H as <- <-. cbn. rewrite !app_nil_r. repeat split; auto; try constructor.
    destruct prev; constructor.
  - cbn [rood_scan] in H. destruct (21 <=? _) eqn:L; [discriminate|].
    destruct (N.shiftl 1 29 <=? e)%N eqn:B; [discriminate|]. apply N.leb_gt in B.
    change (N.shiftl 1 29) with (2 ^ 29)%N in B.
    destruct (match prev with Some p => (e <=? p)%N | None => false end) eqn:P; [discriminate|].
    apply Nat.leb_gt in L. cbn [filter].
    assert (Pf : match prev with Some p => (p < e)%N | None => True end).
    { destruct prev; [apply N.leb_gt in P; exact P|exact I]. }
    rewrite <- N.negb_odd.
    destruct (N.odd e) eqn:O; cbn [negb].
    + apply IH in H as (H1 & H2 & H3 & H4 & H5 & H6 & H7). rewrite <- app_assoc in H2. cbn [app] in H2.
      repeat split; auto.
      * intros _. apply H4. rewrite app_length. cbn. lia.
      * constructor; auto.
      * destruct prev; [|exact I]. constructor; [exact Pf|]. eapply Forall_impl; [|exact H7]. cbn. intros x Hx. lia.
    + apply IH in H as (H1 & H2 & H3 & H4 & H5 & H6 & H7). rewrite <- app_assoc in H1. cbn [app] in H1.
      repeat split; auto.
      * intros _. apply H3. rewrite app_length. cbn. lia.
      * constructor; auto.
      * destruct prev; [|exact I]. constructor; [exact Pf|]. eapply Forall_impl; [|exact H7]. cbn. intros x Hx. lia.
Qed.

Lemma filter_parity_length (l : list N) : length (filter N.even l) + length (filter N.odd l) = length l.
Proof.
  induction l as [|x l IH]; [reflexivity|]. cbn. rewrite <- N.negb_odd. destruct (N.odd x); cbn; lia.
Qed.

Definition cuckarood_ends (keys : sip) : N -> (bool * N) * (bool * N) :=
  bi_ends (fun e => N.land (sipblock 25 keys e) NODE1MASK)
          (fun e => N.land (N.shiftr (sipblock 25 keys e) 32) NODE1MASK).

Definition rood_nonce (d0 d1 : list N) (i : nat) : N := nth (i / 4) (if i mod 4 <? 2 then d0 else d1) 0%N.

Definition rood_pos (i : nat) : bool := (i <? 84) && ((i mod 4 =? 0) || (i mod 4 =? 3)).

Lemma rood_pos_facts i : rood_pos i = true ->
  i < 84 /\ i / 4 < 21 /\ flip i / 4 = i / 4 /\ (flip i mod 4 <? 2) = (i mod 4 <? 2) /\
  ((Nat.even i = true /\ (i mod 4 <? 2) = true /\ i = 4 * (i / 4)) \/
   (Nat.even i = false /\ (i mod 4 <? 2) = false /\ i = 4 * (i / 4) + 3)).
Proof.
  assert (C : forallb (fun i => implb (rood_pos i)
     ((i <? 84) && (i / 4 <? 21) && (flip i / 4 =? i / 4) && Bool.eqb (flip i mod 4 <? 2) (i mod 4 <? 2) &&
      ((Nat.even i && (i mod 4 <? 2) && (i =? 4 * (i / 4))) ||
       (negb (Nat.even i) && negb (i mod 4 <? 2) && (i =? 4 * (i / 4) + 3))))) (seq 0 84) = true)
    by (vm_compute; reflexivity).
  intros H. rewrite forallb_forall in C.
  assert (Hi : i < 84) by (unfold rood_pos in H; apply andb_true_iff in H as [H _]; apply Nat.ltb_lt; exact H).
  specialize (C i ltac:(apply in_seq; lia)). rewrite H in C. cbn [implb] in C.
  repeat (apply andb_true_iff in C as [C ?C]).
  apply Nat.ltb_lt in C3. apply Nat.eqb_eq in C2. apply Bool.eqb_prop in C1.
  repeat split; auto. apply orb_true_iff in C0 as [C0|C0]; repeat (apply andb_true_iff in C0 as [C0 ?C0]).
  - left. apply Nat.eqb_eq in C4. auto.
  - right. apply Nat.eqb_eq in C4. apply negb_true_iff in C0, C5. auto.
Qed.

Lemma ks_rood_next : forall i k, rood_pos i = true -> In k (ks_rood i) ->
  k < 84 /\ k <> i /\ rood_pos (flip k) = true /\ Nat.odd k = Nat.odd i /\ (flip k mod 4 <? 2) = negb (i mod 4 <? 2).
Proof.
  assert (C : forallb (fun i => implb (rood_pos i)
     (forallb (fun k => (k <? 84) && negb (k =? i) && rood_pos (flip k) && Bool.eqb (Nat.odd k) (Nat.odd i) &&
                        Bool.eqb (flip k mod 4 <? 2) (negb (i mod 4 <? 2))) (ks_rood i))) (seq 0 84) = true)
    by (vm_compute; reflexivity).
  intros i k H Hk. rewrite forallb_forall in C.
  assert (Hi : i < 84) by (unfold rood_pos in H; apply andb_true_iff in H as [H _]; apply Nat.ltb_lt; exact H).
  specialize (C i ltac:(apply in_seq; lia)). rewrite H in C. cbn [implb] in C.
  rewrite forallb_forall in C. specialize (C k Hk).
  repeat (apply andb_true_iff in C as [C ?C]).
  apply Nat.ltb_lt in C. apply negb_true_iff, Nat.eqb_neq in C3. apply Bool.eqb_prop in C0, C1. auto.
Qed.

Lemma ks_rood_nodup i : NoDup (ks_rood i).
Proof.
  unfold ks_rood. cbv zeta. set (k0 := if i mod 4 <? 2 then _ else _). clearbody k0.
  apply map_inj_nodup. intros a b _ _ H. lia.
Qed.

Lemma cuckarood_step_eq uvs i : cuckarood_step uvs i =
  match find_other (fun k => N.eqb (uvs k) (uvs i)) i (ks_rood i) i with
  | None => inl POW_BRANCH
  | Some j => if j =? i then inl POW_DEAD_END else inr j
  end.
Proof. reflexivity. Qed.

Lemma rood_step_some uvs i j :
  rood_pos i = true -> cuckarood_step uvs i = inr j ->
  In j (ks_rood i) /\ uvs j = uvs i /\ forall k, In k (ks_rood i) -> uvs k = uvs i -> k = j.
Proof.
  intros Hi H. rewrite cuckarood_step_eq in H. destruct (find_other _ _ _ _) as [j'|] eqn:E; [|discriminate].
  destruct (j' =? i) eqn:B; [discriminate|]. injection H as ->. apply Nat.eqb_neq in B.
  apply find_other_some in E; [|apply ks_rood_nodup|].
  2:{ intros Hin. destruct (ks_rood_next _ _ Hi Hin) as (_ & N & _). auto. }
  destruct E as [[E _]|(_ & Hin & Hs & Hu)]; [contradiction|]. apply N.eqb_eq in Hs.
  repeat split; auto. intros k Hk Hk2. apply Hu; auto. apply N.eqb_eq. exact Hk2.
Qed.

Lemma cuckarood_ok_sound fuel edges keys :
  length edges = 42 ->
  verify_cuckarood fuel edges keys = Some POW_OK ->
  proof_shape (2 ^ 29) edges /\
  alternating_cycle (cuckarood_ends keys) eq (fun x => x) edges.
Proof.
  intros Hlen H. unfold verify_cuckarood in H.
  destruct (rood_scan None edges [] []) as [c [d0 d1]] eqn:E. destruct c; try discriminate.
  apply rood_scan_ok in E as (E0 & E1 & L0 & L1 & Hb & Hs & _). cbn [app length] in *.
  specialize (L0 ltac:(lia)). specialize (L1 ltac:(lia)).
  pose proof (filter_parity_length edges) as Hp. rewrite <- E0, <- E1, Hlen in Hp.
  assert (Hl0 : length d0 = 21) by lia. assert (Hl1 : length d1 = 21) by lia. clear L0 L1 Hp.
  destruct (N.lor _ _ =? 0)%N; [|discriminate].
  split; [repeat split; auto|].
  pose proof (sorted_nodup _ Hs) as Hnd.
  set (uvs := rood_uvs keys d0 d1) in H. set (step := cuckarood_step uvs) in H.
  apply follow_ok in H.
  2:{ intros i. unfold step, cuckarood_step. destruct (find_other _ _ _ _); [|discriminate]. destruct (_ =? _); discriminate. }
  destruct H as (m & Hm0 & Hm & Hg & Hn0 & Hret).
  assert (m = 42) as -> by (unfold PROOFSIZE in Hm; lia). clear Hm0 Hm.
  set (f := fun t => iter step t 0).
  assert (Hnx : forall t, t < 42 -> step (f t) = inr (flip (f (S t)))) by (intros t Ht; exact (partner step 42 Hg t Ht)).
  assert (Hpos : forall t, t <= 42 -> rood_pos (f t) = true).
  { intros t Ht. induction t as [|t IH]; [reflexivity|].
    destruct (rood_step_some uvs _ _ (IH ltac:(lia)) (Hnx t ltac:(lia))) as (A & _).
    destruct (ks_rood_next _ _ (IH ltac:(lia)) A) as (_ & _ & A3 & _). rewrite flip_flip in A3. exact A3. }
  assert (Hpar : forall t, t < 42 -> (f (S t) mod 4 <? 2) = negb (f t mod 4 <? 2)).
  { intros t Ht. destruct (rood_step_some uvs _ _ (Hpos t ltac:(lia)) (Hnx t Ht)) as (A & _).
    destruct (ks_rood_next _ _ (Hpos t ltac:(lia)) A) as (_ & _ & _ & _ & A5). rewrite flip_flip in A5. exact A5. }
  assert (Hevn : forall e, In e d0 -> N.odd e = false).
  { intros e He. rewrite E0 in He. apply filter_In in He as [_ He]. rewrite <- N.negb_odd in He. apply negb_true_iff in He. exact He. }
  assert (Hodd : forall e, In e d1 -> N.odd e = true).
  { intros e He. rewrite E1 in He. apply filter_In in He as [_ He]. exact He. }
  assert (Hno : forall t, t <= 42 -> N.odd (rood_nonce d0 d1 (f t)) = negb (f t mod 4 <? 2)).
  { intros t Ht. destruct (rood_pos_facts _ (Hpos t Ht)) as (_ & A2 & _). unfold rood_nonce.
    destruct (f t mod 4 <? 2); [apply Hevn|apply Hodd]; apply nth_In; lia. }
  set (lab := fun i => (rood_nonce d0 d1 i, Nat.even i)).
  exists (walk_of lab f). split.
  - apply (assemble _ _ _ edges lab (fun i => (Nat.odd (flip i), uvs (flip i))) (fun i => (Nat.odd i, uvs i)) f).
    + exact Hlen.
    + intros t Ht. unfold lab; cbn [fst]. destruct (rood_pos_facts _ (Hpos t ltac:(lia))) as (_ & A2 & _).
      unfold rood_nonce. destruct (f t mod 4 <? 2).
      * assert (A : In (nth (f t / 4) d0 0%N) d0) by (apply nth_In; lia). rewrite E0 in A at 2. apply filter_In in A. tauto.
      * assert (A : In (nth (f t / 4) d1 0%N) d1) by (apply nth_In; lia). rewrite E1 in A at 2. apply filter_In in A. tauto.
    + intros a b Ha Hb2 Eq. unfold lab in Eq; cbn [fst] in Eq.
      apply (nodup_return step 42 Hn0 Hret a b Ha Hb2). change (f a = f b).
      pose proof (Hno a ltac:(lia)) as Na. pose proof (Hno b ltac:(lia)) as Nb. rewrite Eq in Na. rewrite Na in Nb.
      assert (P : (f a mod 4 <? 2) = (f b mod 4 <? 2)) by (destruct (f a mod 4 <? 2), (f b mod 4 <? 2); cbn in Nb; congruence).
      destruct (rood_pos_facts _ (Hpos a ltac:(lia))) as (_ & A2 & _ & _ & A5).
      destruct (rood_pos_facts _ (Hpos b ltac:(lia))) as (_ & B2 & _ & _ & B5).
      unfold rood_nonce in Eq. rewrite P in *.
      assert (Q : f a / 4 = f b / 4).
      { destruct (f b mod 4 <? 2).
        - apply (proj1 (NoDup_nth d0 0%N)); [rewrite E0; apply NoDup_filter; exact Hnd|lia|lia|exact Eq].
        - apply (proj1 (NoDup_nth d1 0%N)); [rewrite E1; apply NoDup_filter; exact Hnd|lia|lia|exact Eq]. }
      destruct A5 as [(_ & A5 & A6)|(_ & A5 & A6)], B5 as [(_ & B5 & B6)|(_ & B5 & B6)]; congruence.
    + exact Hret.
    + intros t Ht. unfold lab. destruct (rood_pos_facts _ (Hpos t ltac:(lia))) as (_ & A2 & A3 & A4 & A5).
      unfold walked, cuckarood_ends, bi_ends. cbn [fst snd]. unfold uvs, rood_uvs, rood_nonce.
      rewrite A3, A4, flip_even, <- !Nat.negb_even, flip_even. cbv zeta.
      destruct (Nat.even (f t)); reflexivity.
    + intros t Ht. destruct (rood_step_some uvs _ _ (Hpos t ltac:(lia)) (Hnx t Ht)) as (A & A' & _).
      destruct (ks_rood_next _ _ (Hpos t ltac:(lia)) A) as (_ & _ & _ & A4 & _). rewrite A', A4. reflexivity.
    + intros a b Ha Hb2 Eq. injection Eq as Q1 Q2.
      destruct (rood_step_some uvs _ _ (Hpos a ltac:(lia)) (Hnx a Ha)) as (A1 & A2 & A3).
      destruct (rood_step_some uvs _ _ (Hpos b ltac:(lia)) (Hnx b Hb2)) as (B1 & B2 & B3).
      assert (K : ks_rood (f a) = ks_rood (f b)).
      { destruct (rood_pos_facts _ (Hpos a ltac:(lia))) as (_ & _ & _ & _ & P).
        destruct (rood_pos_facts _ (Hpos b ltac:(lia))) as (_ & _ & _ & _ & P').
        rewrite <- !Nat.negb_even in Q1. unfold ks_rood.
        destruct P as [(P1 & P2 & P3)|(P1 & P2 & P3)], P' as [(P1' & P2' & P3')|(P1' & P2' & P3')];
          rewrite P1, P1' in Q1; cbn in Q1; try discriminate Q1; rewrite P2, P2'.
        - replace (f a mod 4) with 0; [replace (f b mod 4) with 0; [reflexivity|]|].
          + rewrite P3'. rewrite Nat.mul_comm, Nat.mod_mul by lia. reflexivity.
          + rewrite P3. rewrite Nat.mul_comm, Nat.mod_mul by lia. reflexivity.
        - replace (f a mod 4) with 3; [replace (f b mod 4) with 3; [reflexivity|]|].
          + rewrite P3'. rewrite Nat.add_comm, Nat.mul_comm, Nat.mod_add by lia. reflexivity.
          + rewrite P3. rewrite Nat.add_comm, Nat.mul_comm, Nat.mod_add by lia. reflexivity. }
      assert (N1 : f (S a) = f (S b)).
      { apply flip_inj. apply B3; [rewrite <- K; exact A1|]. rewrite A2. exact Q2. }
      destruct (Nat.eq_dec (S a) 42) as [Ea|Ea], (Nat.eq_dec (S b) 42) as [Eb|Eb]; [lia| | |].
      * exfalso. rewrite Ea in N1. apply (Hn0 (S b) ltac:(lia)). change (f (S b) = 0). rewrite <- N1. exact Hret.
      * exfalso. rewrite Eb in N1. apply (Hn0 (S a) ltac:(lia)). change (f (S a) = 0). rewrite N1. exact Hret.
      * assert (S a = S b); [|lia]. apply (nodup_return step 42 Hn0 Hret); [lia|lia|exact N1].
  - intros t s s' H1 H2. rewrite walk_length in H2.
    apply nth_error_walk in H1 as [Ht ->]. apply nth_error_walk in H2 as [Ht' ->]. unfold lab; cbn [fst].
    assert (A : f ((t + 1) mod 42) = f (S t)).
    { destruct (next_index t Ht) as [[A1 A2]|[A1 A2]]; rewrite A2; [rewrite A1; symmetry; exact Hret|reflexivity]. }
    rewrite A, !Hno by lia. rewrite Hpar by exact Ht. reflexivity.
Qed.

(** A verifier run that has come back to an earlier state without meeting edge 0 never ends. *)
Lemma follow_loops step i n p :
  p > 0 -> iter step p i = i ->
  (forall t, t < p -> goes step (iter step t i) /\ iter step (S t) i <> 0) ->
  forall fuel, follow fuel step i n = None.
Proof.
  intros Hp Hper Hall.
  assert (A : forall fuel t n, t < p -> follow fuel step (iter step t i) n = None).
  { induction fuel as [|fuel IH]; intros t n' Ht; [reflexivity|]. cbn [follow].
    destruct (Hall t Ht) as [G Z]. pose proof (goes_step _ _ G) as E. rewrite E, flip_flip, <- iter_S.
    apply Nat.eqb_neq in Z. rewrite Z.
    destruct (Nat.eq_dec (S t) p) as [Ep|Ep].
    - rewrite Ep, Hper. apply (IH 0). lia.
    - apply IH. lia. }
  intros fuel. exact (A fuel 0 n Hp).
Qed.

Lemma follow_prefix step k : forall fuel i n,
  (forall t, t < k -> goes step (iter step t i) /\ iter step (S t) i <> 0) ->
  (forall fuel n, follow fuel step (iter step k i) n = None) ->
  follow fuel step i n = None.
Proof.
  induction k as [|k IH]; intros fuel i n Hp Hl; [apply Hl|].
  destruct fuel as [|fuel]; [reflexivity|]. cbn [follow].
  destruct (Hp 0 ltac:(lia)) as [G Z]. cbn [iter] in G, Z.
  rewrite (goes_step _ _ G), flip_flip. apply Nat.eqb_neq in Z. rewrite Z.
  apply IH.
  - intros t Ht. apply (Hp (S t)). lia.
  - exact Hl.
Qed.

(** ** Cuckaroom *)
Lemma first_from_lt from x j : first_from from x = Some j -> j < length from /\ nth j from 0%N = x.
Proof.
  revert j. induction from as [|y from IH]; cbn; intros j H; [discriminate|].
  destruct (y =? x)%N eqn:E.
  - injection H as <-. apply N.eqb_eq in E. split; [lia|exact E].
  - destruct (first_from from x) as [j'|] eqn:F; [|discriminate]. cbn in H. injection H as <-.
    destruct (IH _ eq_refl). split; [lia|assumption].
Qed.

Lemma follow_room_ok from to : forall fuel visited i n,
  follow_room fuel from to visited i n = Some POW_OK ->
  exists tr : list nat, nth 0 tr 0 = i /\ tr <> [] /\ length tr + n = 42 /\ NoDup tr /\
    (forall x, In x tr -> ~ In x visited) /\
    (forall t, S t < length tr -> first_from from (nth (nth t tr 0) to 0%N) = Some (nth (S t) tr 0)) /\
    first_from from (nth (nth (length tr - 1) tr 0) to 0%N) = Some 0 /\
    (forall x, In x tr -> x = i \/ x < length from).
Proof.
  induction fuel as [|fuel IH]; cbn [follow_room]; intros visited i n H; [discriminate|].
  destruct (existsb (Nat.eqb i) visited) eqn:V; [discriminate|].
  assert (Hv : ~ In i visited).
  { intros Hin. assert (existsb (Nat.eqb i) visited = true); [|congruence].
    apply existsb_exists. exists i. split; [exact Hin|apply Nat.eqb_refl]. }
  destruct (first_from from (nth i to 0%N)) as [nexti|] eqn:F; [|discriminate].
  destruct (nexti =? 0) eqn:Z.
  - apply Nat.eqb_eq in Z. subst nexti. destruct (S n =? PROOFSIZE) eqn:En; [|discriminate].
    apply Nat.eqb_eq in En. unfold PROOFSIZE in En. exists [i].
    split; [reflexivity|]. split; [discriminate|]. split; [cbn; lia|].
    split; [constructor; [intros []|constructor]|].
    split; [intros x [<-|[]]; exact Hv|]. split; [intros t Ht; cbn in Ht; lia|].
    split; [exact F|]. intros x [<-|[]]. auto.
  - destruct (IH _ _ _ H) as (tr & T1 & T2 & T3 & T4 & T5 & T6 & T7 & T8).
    exists (i :: tr). split; [reflexivity|]. split; [discriminate|]. split; [cbn; lia|].
    split. { constructor; [|exact T4]. intros Hin. apply (T5 i Hin). cbn; auto. }
    split. { intros x [<-|Hx]; [exact Hv|]. intros Hin. apply (T5 x Hx). cbn; auto. }
    split. { intros [|t] Ht; cbn [nth]; [rewrite F, <- T1; reflexivity|]. apply T6. cbn in Ht. lia. }
    split. { destruct tr as [|y tr']; [contradiction|]. cbn [length].
      replace (S (S (length tr')) - 1) with (S (length (y :: tr') - 1)) by (cbn; lia). exact T7. }
    intros x [<-|Hx]; [auto|]. destruct (T8 x Hx) as [->|Hlt]; [|auto].
    right. destruct (first_from_lt _ _ _ F). assumption.
Qed.

Definition cuckaroom_ends (keys : sip) : N -> N * N :=
  fun e => (N.land (sipblock_suffix keys e) (N.shiftl 1 29 - 1),
            N.land (N.shiftr (sipblock_suffix keys e) 32) (N.shiftl 1 29 - 1)).

Lemma cuckaroom_ok_sound fuel edges keys :
  length edges = 42 ->
  verify_cuckaroom fuel edges keys = Some POW_OK ->
  proof_shape (2 ^ 29) edges /\
  directed_cycle (cuckaroom_ends keys) eq (fun x => x) edges.
Proof.
  intros Hlen H. unfold verify_cuckaroom in H.
  destruct (scan_edges (N.shiftl 1 29 - 1) None edges) eqn:E; try discriminate.
  apply scan_sorted in E as (Hmask & Hsort & _).
  destruct (xor_list _ _ =? _)%N; [|discriminate].
  split.
  { split; [exact Hlen|]. split; [exact Hsort|]. eapply Forall_impl; [|exact Hmask]. cbn beta. intros e. apply mask_lt. }
  pose proof (sorted_nodup _ Hsort) as Hnd.
  set (from := map _ edges) in H. set (to := map _ edges) in H.
  assert (Lf : length from = 42) by (unfold from; rewrite map_length; exact Hlen).
  destruct (follow_room_ok _ _ _ _ _ _ H) as (tr & T1 & _ & T3 & T4 & _ & T6 & T7 & T8).
  rewrite Nat.add_0_r in T3. rewrite Lf in T8. rewrite T3 in T6, T7.
  assert (R : forall t, t < 42 -> nth t tr 0 < 42).
  { intros t Ht. assert (A : In (nth t tr 0) tr) by (apply nth_In; lia).
    destruct (T8 _ A) as [->|A']; [lia|exact A']. }
  set (f := fun t => if t <? 42 then nth t tr 0 else 0).
  assert (Hf : forall t, t < 42 -> f t = nth t tr 0).
  { intros t Ht. unfold f. apply Nat.ltb_lt in Ht. rewrite Ht. reflexivity. }
  assert (Hf42 : f 42 = 0) by reflexivity.
  assert (Hf0 : f 0 = 0) by (rewrite Hf by lia; exact T1).
  assert (Hstep : forall t, t < 42 -> first_from from (nth (f t) to 0%N) = Some (f (S t))).
  { intros t Ht. rewrite Hf by exact Ht. destruct (Nat.eq_dec (S t) 42) as [Et|Et].
    - rewrite Et, Hf42. rewrite <- T7. repeat f_equal. lia.
    - rewrite Hf by lia. apply T6. lia. }
  assert (Hinj : forall a b, a < 42 -> b < 42 -> f a = f b -> a = b).
  { intros a b Ha Hb Eq. rewrite !Hf in Eq by assumption. apply (proj1 (NoDup_nth tr 0) T4); [lia|lia|exact Eq]. }
  assert (U : forall (g : N -> N) i, i < 42 -> nth i (map g edges) 0%N = g (nth i edges 0%N)).
  { intros g i Hi. rewrite (nth_indep _ 0%N (g 0%N)) by (rewrite map_length; lia). apply map_nth. }
  set (lab := fun i => (nth i edges 0%N, false)).
  exists (walk_of lab f). split.
  - apply (assemble _ _ _ edges lab (fun i => nth i from 0%N) (fun i => nth i to 0%N) f).
    + exact Hlen.
    + intros t Ht. unfold lab; cbn [fst]. apply nth_In. rewrite Hlen, Hf by exact Ht. apply R. exact Ht.
    + intros a b Ha Hb Eq. unfold lab in Eq; cbn [fst] in Eq. apply Hinj; auto.
      apply (proj1 (NoDup_nth edges 0%N) Hnd); [| |exact Eq]; rewrite Hlen, Hf by assumption; apply R; assumption.
    + rewrite Hf42, Hf0. reflexivity.
    + intros t Ht. unfold walked, lab, cuckaroom_ends. cbn [fst snd].
      rewrite Hf by exact Ht. unfold from, to. rewrite !U by (apply R; exact Ht). reflexivity.
    + intros t Ht. pose proof (Hstep t Ht) as S1. apply first_from_lt in S1 as [_ S1]. symmetry. exact S1.
    + intros a b Ha Hb Eq. pose proof (Hstep a Ha) as S1. pose proof (Hstep b Hb) as S2.
      rewrite Eq, S2 in S1. injection S1 as S1.
      destruct (Nat.eq_dec (S a) 42) as [Ea|Ea], (Nat.eq_dec (S b) 42) as [Eb|Eb]; [lia| | |].
      * exfalso. rewrite Ea, Hf42 in S1. assert (S b = 0); [|lia]. apply Hinj; [lia|lia|]. rewrite S1, Hf0. reflexivity.
      * exfalso. rewrite Eb, Hf42 in S1. assert (S a = 0); [|lia]. apply Hinj; [lia|lia|]. rewrite <- S1, Hf0. reflexivity.
      * assert (S b = S a); [|lia]. apply Hinj; [lia|lia|exact S1].
  - unfold walk_of. apply Forall_map. apply Forall_forall. reflexivity.
Qed.

Lemma follow_room_none from to : length from <= 42 -> forall fuel visited i n,
  NoDup visited -> (forall x, In x visited -> x < 42) -> i < 42 ->
  43 <= length visited + fuel -> follow_room fuel from to visited i n <> None.
Proof.
  intros Lf. induction fuel as [|fuel IH]; intros visited i n Hn Hr Hi Hl.
  - exfalso. assert (A : length visited <= length (seq 0 42)).
    { apply NoDup_incl_length; [exact Hn|]. intros x Hx. apply in_seq. specialize (Hr x Hx). lia. }
    rewrite seq_length in A. lia.
  - cbn [follow_room]. destruct (existsb (Nat.eqb i) visited) eqn:V; [discriminate|].
    destruct (first_from from (nth i to 0%N)) as [nexti|] eqn:F; [|discriminate].
    destruct (nexti =? 0); [discriminate|]. apply IH.
    + constructor; [|exact Hn]. intros Hin. assert (existsb (Nat.eqb i) visited = true); [|congruence].
      apply existsb_exists. exists i. split; [exact Hin|apply Nat.eqb_refl].
    + intros x [<-|Hx]; auto.
    + destruct (first_from_lt _ _ _ F). lia.
    + cbn. lia.
Qed.

Lemma cuckaroom_terminates edges keys : length edges = 42 -> verify_cuckaroom 43 edges keys <> None.
Proof.
  intros Hlen. unfold verify_cuckaroom. destruct (scan_edges _ _ _); try discriminate.
  destruct (xor_list _ _ =? _)%N; [|discriminate].
  apply follow_room_none; [rewrite map_length; lia|constructor|intros x []|lia|cbn; lia].
Qed.

(** A walk on the 84 endpoints that is still going after 85 rounds never ends. *)
Lemma dup_split : forall l : list nat, ~ NoDup l -> exists a l1 l2 l3, l = l1 ++ a :: l2 ++ a :: l3.
Proof.
  induction l as [|x l IH]; intros H; [exfalso; apply H; constructor|].
  destruct (in_dec Nat.eq_dec x l) as [Hin|Hout].
  - apply in_split in Hin. destruct Hin as (l2 & l3 & ->). exists x, [], l2, l3. reflexivity.
  - destruct IH as (a & l1 & l2 & l3 & ->); [intros Hn; apply H; constructor; assumption|].
    exists a, (x :: l1), l2, l3. reflexivity.
Qed.
Lemma follow_85_forever step :
  (forall i j, i < 84 -> step i = inr j -> flip j < 84) ->
  follow 85 step 0 0 = None -> forall fuel, follow fuel step 0 0 = None.
Proof.
  intros Hb H fuel. pose proof (follow_none _ _ _ _ H) as Hf.
  set (f := fun t => iter step t 0).
  assert (Hlt : forall t, t < 85 -> f t < 84).
  { induction t as [|t IH]; intros Ht; [unfold f; cbn; lia|].
    unfold f. rewrite iter_S. destruct (Hf t ltac:(lia)) as [G _].
    pose proof (goes_step _ _ G) as E. specialize (IH ltac:(lia)).
    specialize (Hb _ _ IH E). rewrite flip_flip in Hb. exact Hb. }
  assert (Hnd : ~ NoDup (map f (seq 0 85))).
  { intros Hn. assert (A : length (map f (seq 0 85)) <= length (seq 0 84)).
    { apply NoDup_incl_length; [exact Hn|]. intros x Hx. apply in_map_iff in Hx.
      destruct Hx as (t & <- & Ht). apply in_seq in Ht. apply in_seq. specialize (Hlt t ltac:(lia)). lia. }
    rewrite map_length, !seq_length in A. lia. }
  apply dup_split in Hnd.
  destruct Hnd as (a & l1 & l2 & l3 & E).
  set (t1 := length l1). set (t2 := length l1 + S (length l2)).
  assert (L : length (l1 ++ a :: l2 ++ a :: l3) = 85) by (rewrite <- E, map_length, seq_length; reflexivity).
  rewrite !app_length in L. cbn [length] in L. rewrite app_length in L. cbn [length] in L.
  assert (nf : forall t, t < 85 -> nth t (map f (seq 0 85)) 0 = f t).
  { intros t Ht. rewrite (nth_indep _ 0 (f 0)) by (rewrite map_length, seq_length; exact Ht).
    rewrite map_nth, seq_nth by exact Ht. reflexivity. }
  assert (F1 : f t1 = a).
  { rewrite <- nf by (unfold t1; lia). rewrite E. unfold t1. rewrite app_nth2 by lia.
    rewrite Nat.sub_diag. reflexivity. }
  assert (F2 : f t2 = a).
  { rewrite <- nf by (unfold t2; lia). rewrite E. unfold t2. rewrite app_nth2 by lia.
    replace (length l1 + S (length l2) - length l1) with (S (length l2)) by lia. cbn [nth].
    rewrite app_nth2 by lia. rewrite Nat.sub_diag. reflexivity. }
  assert (Hadd : forall u t i, iter step u (iter step t i) = iter step (t + u) i).
  { intros u t. induction t as [|t IH]; intros i; [reflexivity|]. cbn [iter Nat.add]. apply IH. }
  apply (follow_prefix step t1).
  - intros t Ht. apply Hf. unfold t1 in Ht. lia.
  - intros fuel' n'. apply (follow_loops step _ _ (t2 - t1)).
    + unfold t2, t1. lia.
    + rewrite Hadd. replace (t1 + (t2 - t1)) with t2 by (unfold t1, t2; lia).
      change (f t2 = f t1). congruence.
    + intros t Ht. rewrite !Hadd. replace (t1 + S t) with (S (t1 + t)) by lia. apply Hf.
      unfold t1, t2 in *. lia.
Qed.

Lemma find_other_in same i : forall ks j r, find_other same i ks j = Some r -> r = j \/ In r ks.
Proof.
  induction ks as [|k ks IH]; cbn [find_other]; intros j r H; [left; congruence|].
  destruct (same k).
  - destruct (j =? i); [|discriminate]. apply IH in H. cbn. intuition congruence.
  - apply IH in H. cbn. tauto.
Qed.

Lemma flip_lt_84 j : j < 84 -> flip j < 84.
Proof.
  intros H. unfold flip. destruct (Nat.even j) eqn:E; [|destruct j; cbn; lia].
  destruct (Nat.eq_dec j 83) as [->|]; [discriminate E|lia].
Qed.

Lemma cuckarood_85_forever edges keys :
  verify_cuckarood 85 edges keys = None -> forall fuel, verify_cuckarood fuel edges keys = None.
Proof.
  unfold verify_cuckarood. destruct (rood_scan _ _ _ _) as [[] [d0 d1]]; try discriminate.
  cbv zeta. destruct (N.eqb _ 0%N); [|discriminate]. intros H fuel.
  revert H fuel. apply follow_85_forever. intros i j Hi E.
  apply flip_lt_84. rewrite cuckarood_step_eq in E.
  destruct (find_other _ _ _ _) as [r|] eqn:F; [|discriminate].
  destruct (r =? i); [discriminate|]. injection E as <-.
  apply find_other_in in F. destruct F as [->|F]; [exact Hi|].
  unfold ks_rood in F. apply in_map_iff in F. destruct F as (t & <- & Ht). apply in_seq in Ht.
  destruct (i mod 4 <? 2) eqn:E4; [apply Nat.ltb_lt in E4|apply Nat.ltb_ge in E4];
    pose proof (Nat.mod_upper_bound i 4); lia.
Qed.

Lemma follow_more step : forall fuel k i n c, follow fuel step i n = Some c -> follow (fuel + k) step i n = Some c.
Proof.
  induction fuel as [|fuel IH]; intros k i n c H; [discriminate|]. cbn [follow Nat.add] in *.
  destruct (step i); [exact H|]. destruct (_ =? 0); [exact H|]. apply IH. exact H.
Qed.
