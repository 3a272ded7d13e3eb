(** Proofs about the search of a wallet for its outputs. *)
From Verif Require Import Base Bytes ConsensusModel RestoreModel RestoreSpec.
Local Open Scope N_scope.

(** * The answer of the node *)
Lemma collect_sound n : forall ls index max outs, collect n ls index max = Ret outs -> forall o, In o outs ->
  exists j, o_leaf o = index + N.of_nat j /\ nth_error ls j = Some (Some (o_commitment o, o_proof o)) /\ n_position n (o_commitment o) = Some (o_leaf o, o_height o).
Proof.
  induction ls as [|[(c, p)|] ls IH]; intros index [|max] outs E o I0; cbn [collect] in E.
  1-3: injection E as <-; destruct I0.
  - destruct (n_position n c) as [(leaf, h)|] eqn:Ep; [|discriminate]. destruct (N.eqb_spec leaf index) as [Q|]; [|discriminate]. destruct (collect n ls (index + 1) max) as [l| |] eqn:Ec; cbn [obind] in E; try discriminate. injection E as <-. destruct I0 as [<-|I0].
    + exists 0%nat. cbn [o_leaf o_commitment o_proof o_height nth_error]. repeat split; [lia|]. rewrite Ep, Q. reflexivity.
    + destruct (IH _ _ _ Ec o I0) as (j & A & B & C). exists (S j). repeat split; [lia|exact B|exact C].
  - injection E as <-; destruct I0.
  - destruct (IH _ _ _ E o I0) as (j & A & B & C). exists (S j). repeat split; [lia|exact B|exact C].
Qed.
Lemma collect_last n d : forall ls index max outs, collect n ls index max = Ret outs -> forall o, In o outs -> o_leaf o <= o_leaf (last outs d).
Proof.
  induction ls as [|[(c, p)|] ls IH]; intros index [|max] outs E o I0; cbn [collect] in E.
  1-3: injection E as <-; destruct I0.
  - destruct (n_position n c) as [(leaf, h)|] eqn:Ep; [|discriminate]. destruct (N.eqb_spec leaf index) as [Q|]; [|discriminate]. destruct (collect n ls (index + 1) max) as [l| |] eqn:Ec; cbn [obind] in E; try discriminate. injection E as <-.
    destruct l as [|y l]; [destruct I0 as [<-|[]]; cbn; lia|]. change (last (mkDTO c p index h :: y :: l) d) with (last (y :: l) d). destruct I0 as [<-|I0]; [|exact (IH _ _ _ Ec o I0)].
    pose proof (IH _ _ _ Ec y (or_introl eq_refl)). destruct (collect_sound _ _ _ _ _ Ec y (or_introl eq_refl)) as (j & A & _). cbn [o_leaf]. lia.
  - injection E as <-; destruct I0.
  - exact (IH _ _ _ E o I0).
Qed.
Lemma collect_strict n : forall ls index max x l, collect n ls index max = Ret (x :: l) -> forall o, In o l -> o_leaf x < o_leaf o.
Proof.
  induction ls as [|[(c, p)|] ls IH]; intros index [|max] x l E o I0; cbn [collect] in E; try discriminate.
  - destruct (n_position n c) as [(leaf, h)|] eqn:Ep; [|discriminate]. destruct (N.eqb_spec leaf index) as [Q|]; [|discriminate]. destruct (collect n ls (index + 1) max) as [l'| |] eqn:Ec; cbn [obind] in E; try discriminate. injection E as <- <-.
    destruct (collect_sound _ _ _ _ _ Ec o I0) as (j & A & _). cbn [o_leaf]. lia.
  - exact (IH _ _ _ _ E o I0).
Qed.
Lemma collect_complete n : forall ls index max outs, collect n ls index max = Ret outs -> forall j c p, nth_error ls j = Some (Some (c, p)) ->
  (exists h, In (mkDTO c p (index + N.of_nat j) h) outs /\ n_position n c = Some (index + N.of_nat j, h)) \/ (length outs = max /\ forall o, In o outs -> o_leaf o < index + N.of_nat j).
Proof.
  induction ls as [|[(c0, p0)|] ls IH]; intros index [|max] outs E j c p Hj; cbn [collect] in E.
  1,2: destruct j; discriminate.
  - injection E as <-. right. split; [reflexivity|intros o []].
  - destruct (n_position n c0) as [(leaf, h)|] eqn:Ep; [|discriminate]. destruct (N.eqb_spec leaf index) as [Q|]; [|discriminate]. destruct (collect n ls (index + 1) max) as [l| |] eqn:Ec; cbn [obind] in E; try discriminate. injection E as <-.
    destruct j as [|j]; cbn [nth_error] in Hj.
    + injection Hj as -> ->. left. exists h. replace (index + N.of_nat 0) with index by lia. split; [left; reflexivity|]. rewrite Ep, Q. reflexivity.
    + replace (index + N.of_nat (S j)) with (index + 1 + N.of_nat j) by lia. destruct (IH _ _ _ Ec j c p Hj) as [(h' & A & B)|(A & B)].
      * left. exists h'. split; [right; exact A|exact B].
      * right. split; [cbn; lia|]. intros o [<-|I0]; [cbn [o_leaf]; lia|exact (B o I0)].
  - injection E as <-. right. split; [reflexivity|intros o []].
  - destruct j as [|j]; [discriminate|]. replace (index + N.of_nat (S j)) with (index + 1 + N.of_nat j) by lia. exact (IH _ _ _ E j c p Hj).
Qed.
Lemma collect_ok n : forall ls index max, (forall j c p, nth_error ls j = Some (Some (c, p)) -> exists h, n_position n c = Some (index + N.of_nat j, h)) -> exists outs, collect n ls index max = Ret outs.
Proof.
  induction ls as [|[(c, p)|] ls IH]; intros index [|max] H; cbn [collect].
  1-3: eexists; reflexivity.
  - destruct (H 0%nat c p eq_refl) as (h & ->). replace (index + N.of_nat 0) with index by lia. rewrite N.eqb_refl. destruct (IH (index + 1) max) as (l & ->); [|eexists; reflexivity].
    intros j c' p' Hj. destruct (H (S j) c' p' Hj) as (h' & E). exists h'. rewrite E. do 2 f_equal. lia.
  - eexists; reflexivity.
  - apply IH. intros j c' p' Hj. destruct (H (S j) c' p' Hj) as (h' & E). exists h'. rewrite E. do 2 f_equal. lia.
Qed.
Lemma nth_skipn {A} (l : list A) : forall i j, nth_error (skipn i l) j = nth_error l (i + j).
Proof. induction l as [|a l IH]; intros [|i] j; cbn [skipn]; [reflexivity|destruct j; reflexivity|reflexivity|exact (IH i j)]. Qed.
Definition answers (n : Node) (s : N) (r : OutputRange) : Prop :=
  r_highest r = N.of_nat (length (n_leaves n)) - 1 /\ (forall o, In o (r_outputs r) -> unspent n o /\ s <= o_leaf o) /\
  (r_last r = 0 \/ (s <= r_last r < N.of_nat (length (n_leaves n)) /\ forall o, unspent n o -> s <= o_leaf o <= r_last r -> In o (r_outputs r))) /\
  forall o, unspent n o -> s <= o_leaf o -> r_last r <> 0 \/ o_leaf o = 0.
Lemma range_spec n s max r : (1 < max)%nat -> GetOutputsByLeafIndex n s max = Ret r -> answers n s r.
Proof.
  intros Hm. unfold GetOutputsByLeafIndex. destruct (collect n _ s max) as [outs| |] eqn:E; cbn [obind]; try discriminate. intros [= <-]. unfold answers. cbn [r_highest r_last r_outputs].
  assert (Sd : forall o, In o outs -> unspent n o /\ s <= o_leaf o).
  { intros o I0. destruct (collect_sound _ _ _ _ _ E o I0) as (j & A & B & C). rewrite nth_skipn in B. split; [|lia]. split; [|exact C]. rewrite <- B. f_equal. lia. }
  assert (Cp : forall o, unspent n o -> s <= o_leaf o -> In o outs \/ (length outs = max /\ forall o', In o' outs -> o_leaf o' < o_leaf o)).
  { intros o (U1 & U2) Ls. destruct (collect_complete _ _ _ _ _ E (N.to_nat (o_leaf o) - N.to_nat s) (o_commitment o) (o_proof o)) as [(h & A & B)|(A & B)].
    - rewrite nth_skipn. rewrite <- U1. f_equal. lia.
    - replace (s + N.of_nat (N.to_nat (o_leaf o) - N.to_nat s)) with (o_leaf o) in * by lia. rewrite U2 in B. injection B as <-. left. destruct o; exact A.
    - replace (s + N.of_nat (N.to_nat (o_leaf o) - N.to_nat s)) with (o_leaf o) in * by lia. right. split; assumption. }
  split; [destruct (N.ltb_spec 0 (N.of_nat (length (n_leaves n)))); lia|]. split; [exact Sd|]. set (d := mkDTO [] [] 0 0).
  destruct outs as [|x outs'] eqn:Eo.
  - split; [left; reflexivity|]. intros o U Ls. right. destruct (Cp o U Ls) as [[]|(A & _)]. cbn in A. lia.
  - rewrite <- Eo in *. assert (Il : In (last outs d) outs).
    { rewrite Eo. destruct (exists_last (l := x :: outs') ltac:(discriminate)) as (l' & a & ->). rewrite last_last. apply in_or_app. right. left. reflexivity. }
    destruct (Sd _ Il) as ((U1 & U2) & Ls). assert (Hlt : (N.to_nat (o_leaf (last outs d)) < length (n_leaves n))%nat) by (apply nth_error_Some; rewrite U1; discriminate).
    split.
    + right. split; [lia|]. intros o U L1. destruct (Cp o U (proj1 L1)) as [A|(A & B)]; [exact A|]. specialize (B _ Il). lia.
    + intros o U L1. destruct (N.eq_dec (o_leaf (last outs d)) 0) as [Z|Z]; [|left; exact Z]. right. destruct (Cp o U L1) as [A|(A & B)].
      * pose proof (collect_last _ d _ _ _ _ E o A). lia.
      * exfalso. rewrite Eo in A, E. destruct outs' as [|y l]; [cbn in A; lia|]. pose proof (collect_strict _ _ _ _ _ _ E y (or_introl eq_refl)). pose proof (collect_last _ d _ _ _ _ E y (or_intror (or_introl eq_refl))). rewrite Eo in Z. lia.
Qed.
Lemma range_ok n s max : consistent n -> exists r, GetOutputsByLeafIndex n s max = Ret r.
Proof.
  intros (_ & C & _). unfold GetOutputsByLeafIndex. destruct (collect_ok n (skipn (N.to_nat s) (n_leaves n)) s max) as (outs & ->); [|eexists; reflexivity].
  intros j c p Hj. rewrite nth_skipn in Hj. destruct (C _ _ _ Hj) as (h & E). exists h. rewrite E. do 2 f_equal. lia.
Qed.
(** The last leaf. *)
Lemma last_unspent n : consistent n -> (0 < length (n_leaves n))%nat /\ exists o, unspent n o /\ o_leaf o = N.of_nat (length (n_leaves n)) - 1.
Proof.
  intros (_ & C & ((c, p) & L)). destruct (n_leaves n) as [|a l] eqn:E; [discriminate|]. split; [cbn; lia|].
  assert (Hn : nth_error (n_leaves n) (length l) = Some (Some (c, p))).
  { rewrite E. destruct (exists_last (l := a :: l) ltac:(discriminate)) as (l' & b & Q). rewrite Q in *. rewrite last_last in L. subst b. assert (length l = length l') by (apply (f_equal (@length _)) in Q; rewrite app_length in Q; cbn in Q; lia).
    rewrite nth_error_app2 by lia. replace (length l - length l')%nat with 0%nat by lia. reflexivity. }
  rewrite <- E in C. destruct (C _ _ _ Hn) as (h & P). exists (mkDTO c p (N.of_nat (length l)) h). split; [|cbn; lia]. split; cbn [o_leaf o_commitment o_proof o_height]; [rewrite Nat2N.id; exact Hn|exact P].
Qed.

(** * The loop *)
Lemma filter_map_in {A B} (f : A -> option B) l y : In y (filter_map f l) <-> exists x, In x l /\ f x = Some y.
Proof.
  induction l as [|a l IH]; cbn [filter_map]; [split; [intros []|intros (x & [] & _)]|]. destruct (f a) as [b|] eqn:E; cbn [In]; rewrite IH; clear IH.
  - split; [intros [<-|(x & H1 & H2)]; [exists a; auto|exists x; auto]|]. intros (x & [<-|H1] & H2); [left; congruence|right; exists x; auto].
  - split; [intros (x & H1 & H2); exists x; auto|]. intros (x & [<-|H1] & H2); [congruence|exists x; auto].
Qed.
Section Loop.
Variable env : Environment.
Variable k : keychain.
Lemma version_one h : (GetHeaderVersion env (h - 2 * WEEK_HEIGHT) =? 1) = true <-> old_proofs env h.
Proof.
  unfold GetHeaderVersion, old_proofs. change (2 * WEEK_HEIGHT) with 20160. change HARD_FORK_INTERVAL with 262080. change FLOONET_FIRST_HARD_FORK with 185040.
  destruct env; repeat match goal with |- context [?a <? ?b] => destruct (N.ltb_spec a b) end; rewrite N.eqb_eq; split; intros; try lia; discriminate.
Qed.
Lemma wallet_output o x : GetWalletOutput env k o = Some x -> mine env k o /\ describes k o x.
Proof.
  unfold GetWalletOutput. destruct (_ =? 1) eqn:V.
  - apply version_one in V. destruct (RewindRangeProof k _ _ ORIGINAL) as [p|] eqn:R.
    + intros [= <-]. split; [right; split; [exact V|rewrite R; discriminate]|]. repeat split. exists ORIGINAL, p. repeat split; exact R.
    + destruct (RewindRangeProof k _ _ ENHANCED) as [p|] eqn:R2; [|discriminate]. intros [= <-]. split; [left; rewrite R2; discriminate|]. repeat split. exists ENHANCED, p. repeat split; exact R2.
  - destruct (RewindRangeProof k _ _ ENHANCED) as [p|] eqn:R2; [|discriminate]. intros [= <-]. split; [left; rewrite R2; discriminate|]. repeat split. exists ENHANCED, p. repeat split; exact R2.
Qed.
Lemma wallet_output_mine o : mine env k o -> exists x, GetWalletOutput env k o = Some x.
Proof.
  intros M. unfold GetWalletOutput. destruct (_ =? 1) eqn:V.
  - destruct (RewindRangeProof k _ _ ORIGINAL) as [p|] eqn:R; [eexists; reflexivity|]. destruct M as [M|(_ & M)]; [|contradiction]. destruct (RewindRangeProof k _ _ ENHANCED); [eexists; reflexivity|contradiction].
  - destruct M as [M|(M & _)]; [|apply version_one in M; congruence]. destruct (RewindRangeProof k _ _ ENHANCED); [eexists; reflexivity|contradiction].
Qed.

Variable node : nat -> option Node.
(** Everything found is an output of the wallet that was unspent when the node was asked. *)
Lemma scan_sound s : forall fuel t next highest acc l i t', s <= next ->
  (forall x, In x acc -> exists u n o, node u = Some n /\ unspent n o /\ s <= o_leaf o /\ mine env k o /\ describes k o x) ->
  (forall u n, node u = Some n -> N.of_nat (length (n_leaves n)) < 2 ^ 63) ->
  scan env k node fuel t next highest acc = Some (Ret (l, i, t')) ->
  forall x, In x l -> exists u n o, node u = Some n /\ unspent n o /\ s <= o_leaf o /\ mine env k o /\ describes k o x.
Proof.
  induction fuel as [|fuel IH]; intros t next highest acc l i t' Hs A Hn; cbn [scan]; [discriminate|]. destruct (node t) as [n|] eqn:En; [|intros [= <- _ _] x []].
  destruct (GetOutputsByLeafIndex n next _) as [r| |] eqn:G; try discriminate. apply range_spec in G; [|unfold NUM_OUTPUTS_PER_BATCH; lia]. destruct G as (G1 & G2 & G3 & _). destruct (N.eqb_spec (r_last r) 0) as [|Z]; [intros [= <- _ _] x []|].
  assert (A' : forall x, In x (acc ++ filter_map (GetWalletOutput env k) (r_outputs r)) -> exists u n o, node u = Some n /\ unspent n o /\ s <= o_leaf o /\ mine env k o /\ describes k o x).
  { intros x I0. apply in_app_or in I0. destruct I0 as [I0|I0]; [exact (A x I0)|]. apply filter_map_in in I0. destruct I0 as (o & O1 & O2). destruct (wallet_output o x O2) as (M & D). destruct (G2 o O1) as (U & L). exists t, n, o. repeat split; try assumption; try apply U; try apply D. lia. }
  assert (Hl : s <= add64 (r_last r) 1). { destruct G3 as [|(G3 & _)]; [contradiction|]. unfold add64. rewrite N.mod_small; [lia|]. pose proof (Hn t n En). change (2 ^ 63) with 9223372036854775808 in *. lia. }
  destruct (_ <? _); [intros [= <- _ _]; exact A'|]. apply IH; assumption.
Qed.
(** The fuel suffices. *)
Lemma scan_fuel : (forall u n, node u = Some n -> N.of_nat (length (n_leaves n)) < 2 ^ 63) -> forall fuel t next highest acc, 0 < highest < N.of_nat fuel + next -> scan env k node fuel t next highest acc <> None \/ highest < next.
Proof.
  intros Hn. induction fuel as [|fuel IH]; intros t next highest acc Hf; [right; lia|]. cbn [scan]. destruct (node t) as [n|] eqn:En; [|left; discriminate].
  destruct (GetOutputsByLeafIndex n next _) as [r| |] eqn:G; try (left; discriminate). apply range_spec in G; [|unfold NUM_OUTPUTS_PER_BATCH; lia]. destruct G as (G1 & G2 & G3 & _). destruct (N.eqb_spec (r_last r) 0) as [|Z]; [left; discriminate|].
  destruct G3 as [|(G3 & _)]; [contradiction|]. pose proof (Hn t n En). change (2 ^ 63) with 9223372036854775808 in *. assert (Q : add64 (r_last r) 1 = r_last r + 1) by (unfold add64; apply N.mod_small; lia). rewrite Q.
  destruct (N.eqb_spec highest 0); [lia|]. destruct (N.ltb_spec highest (r_last r + 1)); [left; discriminate|]. destruct (IH (S t) (r_last r + 1) highest (acc ++ filter_map (GetWalletOutput env k) (r_outputs r))) as [|]; [lia|left; assumption|lia].
Qed.
End Loop.

(** * A chain that only grows *)
Section Growing.
Variable env : Environment.
Variable k : keychain.
Variable node : nat -> option Node.
Variable chain : nat -> Node.
Hypothesis Hc : forall t, node t = Some (chain t).
Hypothesis Hw : forall t, consistent (chain t).
Hypothesis Hg : forall t, grown (chain t) (chain (S t)).

Lemma grown_later t u : (t <= u)%nat -> grown (chain t) (chain u).
Proof.
  induction 1 as [|u L IH]; [split; [lia|auto]|]. destruct IH as (A & B). destruct (Hg u) as (C & D). split; [lia|]. intros o U Lo. apply B; [|exact Lo]. apply D; [exact U|lia].
Qed.
Lemma small t : N.of_nat (length (n_leaves (chain t))) < 2 ^ 63. Proof. exact (proj1 (Hw t)). Qed.
Lemma batch_two : (1 < NUM_OUTPUTS_PER_BATCH)%nat. Proof. unfold NUM_OUTPUTS_PER_BATCH. lia. Qed.
(** One request. *)
Lemma request s t next acc r : GetOutputsByLeafIndex (chain t) next NUM_OUTPUTS_PER_BATCH = Ret r -> r_last r <> 0 ->
  (forall u o, (t <= u)%nat -> unspent (chain u) o -> s <= o_leaf o < next -> mine env k o -> exists x, In x acc /\ describes k o x) ->
  next <= r_last r < N.of_nat (length (n_leaves (chain t))) /\ add64 (r_last r) 1 = r_last r + 1 /\ sub64 (r_last r + 1) 1 = r_last r /\
  forall u o, (t <= u)%nat -> unspent (chain u) o -> s <= o_leaf o < r_last r + 1 -> mine env k o -> exists x, In x (acc ++ filter_map (GetWalletOutput env k) (r_outputs r)) /\ describes k o x.
Proof.
  intros G Z A. apply range_spec in G; [|unfold NUM_OUTPUTS_PER_BATCH; lia]. destruct G as (_ & _ & G3 & _). destruct G3 as [|(G3 & G4)]; [contradiction|]. pose proof (small t). change (2 ^ 63) with 9223372036854775808 in *.
  split; [exact G3|]. split; [unfold add64; apply N.mod_small; lia|]. split; [rewrite sub64_small by lia; lia|].
  intros u o Lu U Lo M. destruct (N.ltb_spec (o_leaf o) next).
  - destruct (A u o Lu U ltac:(lia) M) as (x & X1 & X2). exists x. split; [apply in_or_app; left; exact X1|exact X2].
  - assert (U0 : unspent (chain t) o) by (apply (proj2 (grown_later t u Lu)); [exact U|lia]). destruct (wallet_output_mine env k o M) as (x & Ex). exists x. split; [|apply (wallet_output env k o x Ex)].
    apply in_or_app. right. apply filter_map_in. exists o. split; [apply G4; [exact U0|lia]|exact Ex].
Qed.
Lemma scan_complete s : forall fuel t next highest acc l j t',
  (forall u o, (t <= u)%nat -> unspent (chain u) o -> s <= o_leaf o < next -> mine env k o -> exists x, In x acc /\ describes k o x) ->
  scan env k node fuel t next highest acc = Some (Ret (l, Some j, t')) ->
  (t < t')%nat /\ next <= j < 2 ^ 63 /\ forall u o, (t' <= S u)%nat -> unspent (chain u) o -> s <= o_leaf o <= j -> mine env k o -> exists x, In x l /\ describes k o x.
Proof.
  induction fuel as [|fuel IH]; intros t next highest acc l j t' A; cbn [scan]; [discriminate|]. rewrite Hc. destruct (GetOutputsByLeafIndex (chain t) next _) as [r| |] eqn:G; try discriminate.
  destruct (N.eqb_spec (r_last r) 0) as [|Z]; [discriminate|]. destruct (request s t next acc r G Z A) as (R1 & R2 & R3 & R4). rewrite R2. destruct (_ <? _).
  - intros [= <- <- <-]. rewrite R3. pose proof (small t). split; [lia|]. split; [lia|]. intros u o Lu U Lo M. apply (R4 u o); try assumption; lia.
  - intros E. apply IH in E; [|intros u o Lu; apply R4; lia]. destruct E as (E1 & E2 & E3). split; [lia|]. split; [lia|exact E3].
Qed.
Lemma scan_goes_on : forall fuel t next highest acc, 0 < highest < N.of_nat (length (n_leaves (chain t))) -> next <= highest -> highest < N.of_nat fuel + next ->
  exists l j t', scan env k node fuel t next highest acc = Some (Ret (l, Some j, t')) /\ highest <= j.
Proof.
  induction fuel as [|fuel IH]; intros t next highest acc H1 H2 H3; [lia|]. cbn [scan]. rewrite Hc. destruct (range_ok (chain t) next NUM_OUTPUTS_PER_BATCH (Hw t)) as (r & G). rewrite G.
  assert (Z : r_last r <> 0).
  { pose proof (range_spec _ _ _ _ batch_two G) as (_ & _ & _ & G4). destruct (last_unspent _ (Hw t)) as (_ & o & U & L). destruct (G4 o U ltac:(lia)) as [|]; [assumption|lia]. }
  destruct (N.eqb_spec (r_last r) 0) as [|_]; [contradiction|]. destruct (request next t next [] r G Z) as (R1 & R2 & R3 & _); [intros; lia|].
  rewrite R2. destruct (N.eqb_spec highest 0); [lia|]. destruct (N.ltb_spec highest (r_last r + 1)).
  - eexists _, _, _. split; [reflexivity|]. rewrite R3. lia.
  - destruct (IH (S t) (r_last r + 1) highest (acc ++ filter_map (GetWalletOutput env k) (r_outputs r))) as (l & j & t' & E & Lj); [pose proof (proj1 (Hg t)); lia|lia|lia|]. exists l, j, t'. split; [exact E|exact Lj].
Qed.
(** The whole search. *)
Lemma find_goes_on (g : bool) restored t : let s := if g then 0 else restored + 1 in restored < 2 ^ 63 -> s < N.of_nat (length (n_leaves (chain t))) -> (1 < length (n_leaves (chain t)))%nat ->
  exists l j t', FindAndRewindOutputs env k node g restored t = Some (Ret (l, Some j, t')) /\ N.of_nat (length (n_leaves (chain t))) - 1 <= j.
Proof.
  intros s Hr Hs H1. unfold FindAndRewindOutputs. rewrite Hc. replace (if g then 0 else add64 restored 1) with s by (unfold s, add64; destruct g; [reflexivity|]; rewrite N.mod_small; [reflexivity|change (2 ^ 63) with 9223372036854775808 in Hr; lia]).
  cbn [scan]. rewrite Hc. destruct (range_ok (chain t) s NUM_OUTPUTS_PER_BATCH (Hw t)) as (r & G). rewrite G. pose proof (range_spec _ _ _ _ batch_two G) as (G1 & _ & _ & G4).
  assert (Z : r_last r <> 0). { destruct (last_unspent _ (Hw t)) as (_ & o & U & L). destruct (G4 o U ltac:(lia)) as [|]; [assumption|lia]. }
  destruct (N.eqb_spec (r_last r) 0) as [|_]; [contradiction|]. destruct (request s t s [] r G Z) as (R1 & R2 & R3 & _); [intros; lia|]. rewrite R2, N.eqb_refl, G1. destruct (N.ltb_spec (N.of_nat (length (n_leaves (chain t))) - 1) (r_last r + 1)).
  - eexists _, _, _. split; [reflexivity|]. rewrite R3. lia.
  - destruct (scan_goes_on (length (n_leaves (chain t))) (S t) (r_last r + 1) (N.of_nat (length (n_leaves (chain t))) - 1) ([] ++ filter_map (GetWalletOutput env k) (r_outputs r))) as (l & j & t' & E & Lj); [pose proof (proj1 (Hg t)); lia|lia|lia|]. exists l, j, t'. split; [exact E|exact Lj].
Qed.
End Growing.
