(** C60: a wallet finds its outputs in the chain. *)
From Coq Require Import String.
From Verif Require Import Base Bytes ConsensusModel RestoreModel RestoreSpec RestoreProofs.
Local Open Scope N_scope.
Local Open Scope list_scope.

Definition sizes (node : nat -> option Node) : Prop := forall u n, node u = Some n -> N.of_nat (List.length (n_leaves n)) < 2 ^ 63.
(** Whatever the node does, the search ends. *)
Theorem C60_search_ends env k node fromGenesis restored t : sizes node -> FindAndRewindOutputs env k node fromGenesis restored t <> None.
Proof.
  intros Hn. unfold FindAndRewindOutputs. destruct (node t) as [n|] eqn:En; cbn [scan]; rewrite En; [|discriminate].
  set (s := if fromGenesis then 0 else add64 restored 1). destruct (GetOutputsByLeafIndex n s _) as [r| |] eqn:G; try discriminate. apply range_spec in G; [|exact batch_two]. destruct G as (G1 & _ & G3 & _). destruct (N.eqb_spec (r_last r) 0) as [|Z]; [discriminate|].
  destruct G3 as [|(G3 & _)]; [contradiction|]. pose proof (Hn t n En). change (2 ^ 63) with 9223372036854775808 in *. rewrite N.eqb_refl, G1. assert (Q : add64 (r_last r) 1 = r_last r + 1) by (unfold add64; apply N.mod_small; lia). rewrite Q.
  destruct (N.ltb_spec (N.of_nat (List.length (n_leaves n)) - 1) (r_last r + 1)); [discriminate|].
  destruct (scan_fuel env k node Hn (List.length (n_leaves n)) (S t) (r_last r + 1) (N.of_nat (List.length (n_leaves n)) - 1) ([] ++ filter_map (GetWalletOutput env k) (r_outputs r))) as [X|X]; [lia|exact X|lia].
Qed.
(** Whatever the chain does (reorganizations, too), what is found is an output of the wallet that was unspent when the node was asked,
    with the amount and path in its range proof. *)
Theorem C60_found_is_mine env k node : sizes node -> forall rs found restored t, refreshes env k node rs [] 0 0 = (found, restored, t) ->
  forall x, In x found -> exists u n o, node u = Some n /\ unspent n o /\ mine env k o /\ describes k o x.
Proof.
  intros Hn rs. assert (X : forall found0 r0 t0 found r t, (forall x, In x found0 -> exists u n o, node u = Some n /\ unspent n o /\ mine env k o /\ describes k o x) -> refreshes env k node rs found0 r0 t0 = (found, r, t) ->
    forall x, In x found -> exists u n o, node u = Some n /\ unspent n o /\ mine env k o /\ describes k o x); [|intros; eapply (X [] 0 0%nat); [intros y []|eassumption|assumption]].
  induction rs as [|(w, g) rs IH]; intros found0 r0 t0 found r t A; cbn [refreshes]; [intros [= <- _ _]; exact A|].
  destruct (FindAndRewindOutputs env k node g r0 (t0 + w)) as [[((l, i), t')| |]|] eqn:E; apply IH; try exact A. intros x I0. apply in_app_or in I0. destruct I0 as [I0|I0]; [exact (A x I0)|].
  unfold FindAndRewindOutputs in E. destruct (scan_sound env k node 0 _ _ _ _ _ _ _ _ (N.le_0_l _) (fun x (H : In x []) => match H with end) Hn E x I0) as (u & n & o & U1 & U2 & _ & U3 & U4). exists u, n, o. auto.
Qed.

(** * A chain that grows while the wallet searches *)
Definition growing (node : nat -> option Node) (chain : nat -> Node) : Prop :=
  (forall t, node t = Some (chain t)) /\ (forall t, consistent (chain t)) /\ forall t, grown (chain t) (chain (S t)).
Lemma scan_time env k node : forall fuel t next highest acc l i t', scan env k node fuel t next highest acc = Some (Ret (l, i, t')) -> (t < t')%nat /\ (i = None -> l = []).
Proof.
  induction fuel as [|fuel IH]; intros t next highest acc l i t'; cbn [scan]; [discriminate|]. destruct (node t) as [n|]; [|intros [= <- <- <-]; split; [lia|reflexivity]].
  destruct (GetOutputsByLeafIndex _ _ _) as [r| |]; try discriminate. destruct (_ =? 0); [intros [= <- <- <-]; split; [lia|reflexivity]|]. destruct (_ <? _); [intros [= <- <- <-]; split; [lia|discriminate]|]. intros E. apply IH in E. destruct E. split; [lia|assumption].
Qed.
Definition covered env k (chain : nat -> Node) (found : list Restored) (r : N) (t : nat) : Prop :=
  r < 2 ^ 63 /\ forall u o, (t <= S u)%nat -> unspent (chain u) o -> 1 <= o_leaf o <= r -> mine env k o -> exists x, In x found /\ describes k o x.
Lemma refresh_covers env k node chain g r t found l i t' : growing node chain -> covered env k chain found r t -> forall w, FindAndRewindOutputs env k node g r (t + w) = Some (Ret (l, i, t')) ->
  covered env k chain (found ++ l) (match i with Some i => i | None => r end) t' /\ (t + w < t')%nat.
Proof.
  intros (Hc & Hw & Hg) (C1 & C2) w E. unfold FindAndRewindOutputs in E. destruct (scan_time _ _ _ _ _ _ _ _ _ _ _ E) as (T & L0). split; [|exact T]. destruct i as [j|].
  - destruct (scan_complete env k node chain Hc Hw Hg (if g then 0 else add64 r 1) _ _ _ _ _ _ _ _ (fun u o _ _ (H : _ <= _ < _) => match (N.lt_irrefl _ (N.le_lt_trans _ _ _ (proj1 H) (proj2 H))) with end) E) as (_ & J & K).
    split; [apply J|]. intros u o Lu U Lo M. destruct (N.leb_spec (if g then 0 else add64 r 1) (o_leaf o)).
    + destruct (K u o Lu U ltac:(lia) M) as (x & X1 & X2). exists x. split; [apply in_or_app; right; exact X1|exact X2].
    + destruct (C2 u o ltac:(lia) U) as (x & X1 & X2); [|exact M|exists x; split; [apply in_or_app; left; exact X1|exact X2]]. destruct g; [lia|]. change (2 ^ 63) with 9223372036854775808 in *. rewrite add64_small in * by lia. lia.
  - rewrite (L0 eq_refl), app_nil_r. split; [exact C1|]. intros u o Lu. apply C2. lia.
Qed.
Lemma history_covers env k node chain : growing node chain -> forall rs found0 r0 t0 found r t, covered env k chain found0 r0 t0 -> refreshes env k node rs found0 r0 t0 = (found, r, t) -> covered env k chain found r t.
Proof.
  intros G. induction rs as [|(w, g) rs IH]; intros found0 r0 t0 found r t C; cbn [refreshes]; [intros [= <- <- <-]; exact C|].
  destruct (FindAndRewindOutputs env k node g r0 (t0 + w)) as [[((l, i), t')| |]|] eqn:E; apply IH.
  - apply (refresh_covers env k node chain g r0 t0 found0 l i t' G C w E).
  - destruct C as (C1 & C2). split; [exact C1|]. intros u o Lu. apply C2. lia.
  - destruct C as (C1 & C2). split; [exact C1|]. intros u o Lu. apply C2. lia.
  - destruct C as (C1 & C2). split; [exact C1|]. intros u o Lu. apply C2. lia.
Qed.
Lemma refreshes_app env k node rs : forall rs' found r t, refreshes env k node (rs ++ rs') found r t = let '(f, r1, t1) := refreshes env k node rs found r t in refreshes env k node rs' f r1 t1.
Proof. induction rs as [|(w, g) rs IH]; intros rs' found r t; [reflexivity|]. cbn [refreshes app]. destruct (FindAndRewindOutputs _ _ _ _ _ _) as [[((l, i), t')| |]|]; apply IH. Qed.
(** In a chain that only grows, also while the wallet searches, a refresh leaves no output of the wallet unknown: each output that was in the
    chain when it began and is still unspent when it ends (or at any later time) was found in this refresh or an earlier one. (Except in the very first leaf.) *)
Theorem C60_all_found_partial env k node chain rs w g f0 r0 t0 found r t : growing node chain ->
  refreshes env k node rs [] 0 0 = (f0, r0, t0) -> refreshes env k node (rs ++ [(w, g)]) [] 0 0 = (found, r, t) ->
  forall u o, (t <= S u)%nat -> unspent (chain u) o -> mine env k o -> 1 <= o_leaf o < N.of_nat (List.length (n_leaves (chain (t0 + w)%nat))) -> exists x, In x found /\ describes k o x.
Proof.
  intros G E0 E u o Lu U M Lo. rewrite refreshes_app, E0 in E. assert (C0 : covered env k chain f0 r0 t0).
  { apply (history_covers env k node chain G rs [] 0 0%nat); [|exact E0]. split; [reflexivity|]. intros; lia. }
  pose proof (history_covers env k node chain G _ _ _ _ _ _ _ C0 E) as (C1 & C2). cbn [refreshes] in E. destruct (N.leb_spec (o_leaf o) r0) as [L|L].
  - destruct C0 as (_ & C0). assert (T : (t0 <= t)%nat).
    { destruct (FindAndRewindOutputs env k node g r0 (t0 + w)) as [[((l, i), t')| |]|] eqn:F; injection E as _ _ <-; try lia. unfold FindAndRewindOutputs in F. apply scan_time in F. lia. }
    destruct (C0 u o ltac:(lia) U ltac:(lia) M) as (x & X1 & X2). exists x. split; [|exact X2]. destruct (FindAndRewindOutputs env k node g r0 (t0 + w)) as [[((l, i), t')| |]|]; injection E as <- _ _; try exact X1. apply in_or_app. left. exact X1.
  - apply (C2 u o Lu U); [|exact M]. destruct G as (Hc & Hw & Hg). destruct (find_goes_on env k node chain Hc Hw Hg g r0 (t0 + w)) as (l & j & t' & F & Lj); [apply C0|destruct g; lia|lia|]. rewrite F in E. injection E as _ <- _. lia.
Qed.

(** * What is not found *)
Fixpoint leaf_of (l : list (option (bytes * bytes))) (c : bytes) (i : N) : option (N * N) :=
  match l with [] => None | Some (c', _) :: l => if bytes_eqb c' c then Some (i, 300000) else leaf_of l c (i + 1) | None :: l => leaf_of l c (i + 1) end.
Definition node_of (l : list (option (bytes * bytes))) : Node := mkNode l (fun c => leaf_of l c 0).
Definition toy : keychain := mkKeychain (fun _ p type => match p, type with [1], ENHANCED => Some (mkRewound 7 None []) | _, _ => None end) (fun _ _ => []) (fun _ _ => []).
Definition other (c : N) : option (bytes * bytes) := Some ([c], [0]).
Definition own (c : N) : option (bytes * bytes) := Some ([c], [1]).
Ltac consistent_node := split; [vm_compute; reflexivity|]; split; [|eexists; reflexivity];
  let i := fresh in let c := fresh in let p := fresh in let Q := fresh in intros i c p Q; do 5 (destruct i as [|i]; [cbn in Q; try discriminate; injection Q as <- <-; eexists; vm_compute; reflexivity|]); destruct i; discriminate.

(** After a reorganization, an output that is now at a place already searched is not found, however often the wallet is refreshed
    (unless it searches from the first leaf). *)
Definition fork (t : nat) : Node := match t with O => node_of [other 10; other 11; other 12] | S _ => node_of [other 10; own 13; other 14] end.
Theorem C60_reorg_refuted : exists env k node o, (forall t, exists n, node t = Some n /\ consistent n /\ ((1 <= t)%nat -> unspent n o)) /\ mine env k o /\ 1 <= o_leaf o /\
  forall rs found r t, Forall (fun x => snd x = false) rs -> refreshes env k node ((0%nat, false) :: rs) [] 0 0 = (found, r, t) -> found = [].
Proof.
  exists MAINNET, toy, (fun t => Some (fork t)), (mkDTO [13] [1] 1 300000). split; [|split; [left; discriminate|split; [cbn; lia|]]].
  - intros t. exists (fork t). split; [reflexivity|]. destruct t as [|t]; (split; [consistent_node|]); intros L; [lia|]. split; reflexivity.
  - intros rs found r t F. cbn [refreshes]. assert (E : FindAndRewindOutputs MAINNET toy (fun t => Some (fork t)) false 0 (0 + 0) = Some (Ret ([], Some 2, 1%nat))) by (vm_compute; reflexivity). rewrite E. cbn [app].
    change 1%nat with (S 0). generalize O. clear E. induction F as [|(w, g) rs Hg F IH]; intros n; cbn [refreshes]; [intros [= <- _ _]; reflexivity|]. cbn in Hg. subst g.
    assert (E' : FindAndRewindOutputs MAINNET toy (fun t => Some (fork t)) false 2 (S n + w) = Some (Ret ([], None, S (S n + w)))) by reflexivity. rewrite E'. apply IH.
Qed.
(** An output in the very first leaf is not found. *)
Theorem C60_first_leaf_refuted : exists env k n o, consistent n /\ unspent n o /\ mine env k o /\
  forall rs found r t, Forall (fun x => snd x = false) rs -> refreshes env k (fun _ => Some n) rs [] 0 0 = (found, r, t) -> found = [].
Proof.
  set (n := node_of [own 10; other 11]). exists MAINNET, toy, n, (mkDTO [10] [1] 0 300000). split; [consistent_node|]. split; [split; reflexivity|]. split; [left; discriminate|].
  intros rs found r t F. assert (E0 : forall t0, FindAndRewindOutputs MAINNET toy (fun _ => Some n) false 0 t0 = Some (Ret ([], Some 1, S t0))) by (intros; vm_compute; reflexivity).
  assert (E1 : forall t0, FindAndRewindOutputs MAINNET toy (fun _ => Some n) false 1 t0 = Some (Ret ([], None, S t0))) by (intros; vm_compute; reflexivity).
  assert (X : forall r0 t0, r0 = 0 \/ r0 = 1 -> refreshes MAINNET toy (fun _ => Some n) rs [] r0 t0 = (found, r, t) -> found = []); [|apply X; left; reflexivity].
  clear -F E0 E1. induction F as [|(w, g) rs Hg F IH]; intros r0 t0 Hr; cbn [refreshes]; [intros [= <- _ _]; reflexivity|]. cbn in Hg. subst g. destruct Hr as [-> | ->]; [rewrite E0|rewrite E1]; apply IH; right; reflexivity.
Qed.
(** The theorems have instances: a chain that grows, with an output that is spent and one that is received meanwhile. *)
Definition grows (t : nat) : Node := match t with O => node_of [other 10; own 11; own 12; other 13] | S _ => node_of [other 10; None; own 12; other 13; own 15] end.
Example C60_example : growing (fun t => Some (grows t)) grows /\
  map x_commitment (fst (fst (refreshes MAINNET toy (fun t => Some (grows t)) [(0%nat, false); (3%nat, false); (0%nat, false)] [] 0 0))) = [[11]; [12]; [15]] /\
  map x_commitment (fst (fst (refreshes MAINNET toy (fun t => Some (grows t)) [(3%nat, true)] [] 0 0))) = [[12]; [15]].
Proof.
  split; [|split; vm_compute; reflexivity]. split; [reflexivity|]. split; [intros [|t]; consistent_node|]. intros [|t]; [|split; [apply Nat.le_refl|intros o U _; exact U]]. split; [cbn; lia|].
  intros (c, p, leaf, h) (U1 & U2) L. cbn [o_leaf o_commitment o_proof o_height] in *. remember (N.to_nat leaf) as j eqn:J. assert (Lj : leaf = N.of_nat j) by lia. subst leaf. clear J. cbn in L.
  destruct j as [|[|[|[|j]]]]; cbn in U1; try discriminate; try (injection U1 as <- <-; vm_compute in U2; injection U2 as <-; split; vm_compute; reflexivity). lia.
Qed.
Definition restore_theorems := (C60_search_ends, C60_found_is_mine, C60_all_found_partial, C60_reorg_refuted, C60_first_leaf_refuted, C60_example).
Print Assumptions restore_theorems.
