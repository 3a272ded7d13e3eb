(** C36, C37, C39: coin selection, the arithmetic of a send, and the balance. *)
From Coq Require Import Permutation Sorted.
From Verif Require Import Base Bytes ConsensusModel ValidationModel SerialModel CodecModel KeyPathModel WalletModel WalletSpec
  CoinProofs TableProofs KeyPathProofs SendProofs.
Local Open Scope N_scope.

(** *** C36 *)
(** Whatever the strategy, the coins selected are distinct wallet coins. *)
Theorem C36_distinct sort coins amount fb st inputs o k sel : sorts sort ->
  SelectCoinsToSpend sort coins amount fb st inputs o k = Ret sel -> chosen_from sel coins.
Proof. intros Ss. apply select_chosen. exact Ss. Qed.
(** They cover the amount and the fee for spending just these coins, unless the strategy is ALL, as long as
    no sum reaches 2^64. *)
Theorem C36_covers_partial sort coins amount fb st inputs o k sel : sorts sort -> st <> ALL ->
  no_overflow coins amount fb o k ->
  SelectCoinsToSpend sort coins amount fb st inputs o k = Ret sel -> covers amount fb o k sel.
Proof. intros Ss. apply select_covers. exact Ss. Qed.
(** FEWEST_INPUTS reports insufficient funds only when no selection at all suffices, and otherwise no
    smaller number of coins would do. *)
Theorem C36_fewest_complete sort coins amount fb inputs o k : sorts sort -> no_overflow coins amount fb o k ->
  SelectCoinsToSpend sort coins amount fb FEWEST_INPUTS inputs o k = Throw ->
  forall sel, sel <> [] -> chosen_from sel coins -> ~ covers amount fb o k sel.
Proof. intros Ss. apply fewest_complete. exact Ss. Qed.
Theorem C36_fewest_minimal sort coins amount fb inputs o k sel : sorts sort -> no_overflow coins amount fb o k ->
  SelectCoinsToSpend sort coins amount fb FEWEST_INPUTS inputs o k = Ret sel ->
  forall sel', sel' <> [] -> chosen_from sel' coins -> covers amount fb o k sel' -> (length sel <= length sel')%nat.
Proof. intros Ss. apply fewest_minimal. exact Ss. Qed.
(** SMALLEST selects the smallest coins, and reports insufficient funds only when no number of smallest
    coins suffices. *)
Theorem C36_smallest_selected sort coins amount fb inputs o k sel : sorts sort ->
  SelectCoinsToSpend sort coins amount fb SMALLEST inputs o k = Ret sel -> smallest_of sel coins.
Proof. intros Ss. apply smallest_selected. exact Ss. Qed.
Theorem C36_smallest_complete sort coins amount fb inputs o k : sorts sort -> no_overflow coins amount fb o k ->
  SelectCoinsToSpend sort coins amount fb SMALLEST inputs o k = Throw ->
  forall sel, sel <> [] -> smallest_of sel coins -> ~ covers amount fb o k sel.
Proof. intros Ss. apply smallest_complete. exact Ss. Qed.
(** CUSTOM selects exactly the coins named, and succeeds exactly when they suffice. *)
Theorem C36_custom sort coins amount fb inputs o k sel : no_overflow coins amount fb o k ->
  SelectCoinsToSpend sort coins amount fb CUSTOM inputs o k = Ret sel <->
  (covers amount fb o k sel /\ sel = filter (fun c => existsb (bytes_eqb (c_commitment c)) inputs) coins).
Proof.
  intros NO. destruct (custom_spec amount fb o k coins inputs NO) as (A & B). cbn [SelectCoinsToSpend].
  set (s := filter _ coins) in *.
  assert (D : covers amount fb o k s \/ ~ covers amount fb o k s) by (unfold covers; lia).
  destruct D as [D|D].
  - rewrite (A D). split; [intros [= <-]; auto|intros (_ & ->); reflexivity].
  - rewrite (B D). split; [discriminate|]. intros (C & ->). contradiction.
Qed.
(** Selection never fails in any other way. *)
Theorem C36_total sort coins amount fb st inputs o k : SelectCoinsToSpend sort coins amount fb st inputs o k <> Fault.
Proof.
  destruct st; cbn [SelectCoinsToSpend].
  - apply take_no_fault.
  - apply take_no_fault.
  - unfold SelectUsingCustomInputs. destruct (_ <=? _); discriminate.
  - unfold SelectUsingAllInputs. destruct (_ <? _); discriminate.
Qed.

Definition coin_of (n amount : N) : OutputDataEntity := mkCoin [0; 0; n] 0 [0; 0; n] amount SPENDABLE (Some 1) None.
(** A dust coin makes SMALLEST refuse although the other coin alone would pay: the dust costs more to spend
    than it is worth. *)
Theorem C36_smallest_refuted : exists coins amount fb o k big,
  no_overflow coins amount fb o k /\ chosen_from [big] coins /\ covers amount fb o k [big] /\
  SelectCoinsToSpend sort_coins coins amount fb SMALLEST [] o k = Throw.
Proof.
  exists [coin_of 1 1; coin_of 2 1000000000], (1000000000 - 46 * 500000), 500000, 2, 1, (coin_of 2 1000000000).
  split; [unfold no_overflow; vm_compute; auto|].
  split; [exists [coin_of 1 1]; apply perm_swap|]. split; [vm_compute; discriminate|reflexivity].
Qed.
(** ALL never looks at the funds. *)
Theorem C36_all_refuted : exists coins amount fb o k,
  no_overflow coins amount fb o k /\ SelectCoinsToSpend sort_coins coins amount fb ALL [] o k = Ret coins /\
  ~ covers amount fb o k coins.
Proof.
  exists [coin_of 1 5], 1000000000, 500000, 2, 1. split; [unfold no_overflow; vm_compute; auto|].
  split; [reflexivity|]. unfold covers. vm_compute. intros H. apply H. reflexivity.
Qed.
(** With an amount near 2^64 the sum wraps and one small coin is accepted by every strategy but ALL. *)
Theorem C36_wrap_refuted : exists coins amount fb o k, amount < W64 /\ ~ covers amount fb o k coins /\
  SelectCoinsToSpend sort_coins coins amount fb SMALLEST [] o k = Ret coins /\
  SelectCoinsToSpend sort_coins coins amount fb FEWEST_INPUTS [] o k = Ret coins /\
  SelectCoinsToSpend sort_coins coins amount fb CUSTOM (map c_commitment coins) o k = Ret coins.
Proof.
  exists [coin_of 1 5], (18446744073709551616 - 46 * 500000), 500000, 2, 1. split; [reflexivity|].
  split; [unfold covers; vm_compute; intros H; apply H; reflexivity|]. repeat split; reflexivity.
Qed.

Definition some_coins := [coin_of 1 70000000; coin_of 2 20000000; coin_of 3 90000000; coin_of 4 30000000].
Example C36_example : sorts sort_coins /\ no_overflow some_coins 60000000 500000 2 1 /\
  SelectCoinsToSpend sort_coins some_coins 60000000 500000 SMALLEST [] 2 1 = Ret [coin_of 2 20000000; coin_of 4 30000000; coin_of 1 70000000] /\
  SelectCoinsToSpend sort_coins some_coins 60000000 500000 FEWEST_INPUTS [] 2 1 = Ret [coin_of 3 90000000] /\
  SelectCoinsToSpend sort_coins some_coins 60000000 500000 CUSTOM [[0; 0; 3]; [0; 0; 4]] 2 1 = Ret [coin_of 3 90000000; coin_of 4 30000000] /\
  SelectCoinsToSpend sort_coins some_coins 260000000 500000 FEWEST_INPUTS [] 2 1 = Throw.
Proof.
  split; [exact sort_coins_sorts|]. split; [unfold no_overflow; vm_compute; auto|]. repeat split; reflexivity.
Qed.

(** *** C37 *)
(** A successful send spends coins that were available, whose exact total is the amount in the slate plus the
    fee plus the change; the recorded debit and credit are these totals; the fee is at least the one for the
    transaction's weight, and just that when there is change; the inputs are locked and the change is in the
    wallet. Not for: strategy ALL, 255 change outputs, sums of 2^64 or more, or an entire balance below the fee. *)
Theorem C37_conserves_partial sort env min_confs commit_of ndebug nv d r id sc slate d2 coins d1 :
  sorts sort -> (forall p a p' a', commit_of p a = commit_of p' a' -> p = p') ->
  d_accounts d = CreateAccounts r -> wf d -> node_wf nv d ->
  GetAllAvailableCoins env min_confs nv d = (Ret coins, d1) -> affordable sc coins ->
  (forall ps a p x, next_paths (N.to_nat (changes_wanted sc)) (CreateAccounts r) = Ret (ps, a) -> In p ps -> ~ In (commit_of p x) (coms coins)) ->
  Send sort env min_confs commit_of ndebug nv d id sc = (Ret slate, d2) ->
  exists inputs change tx,
    chosen_from inputs coins /\ length change = N.to_nat (changes_wanted sc) /\
    In tx (d_txs d2) /\ w_type tx = SENDING_STARTED /\ w_slate tx = Some id /\
    w_tx tx = Some (map c_commitment inputs, map c_commitment change) /\
    s_id slate = id /\ requested sc coins (s_amount slate) /\
    total inputs = s_amount slate + m_fee (s_fee slate) + total change /\
    w_debited tx = total inputs /\ w_credited tx = total change /\ total inputs < W64 /\
    fee_of (sc_feeBase sc) (length inputs) (1 + changes_wanted sc) 1 <= m_fee (s_fee slate) /\
    (changes_wanted sc <> 0 -> m_fee (s_fee slate) = fee_of (sc_feeBase sc) (length inputs) (1 + changes_wanted sc) 1) /\
    (forall c, In c inputs -> In (SetStatus LOCKED c) (d_outputs d2)) /\
    (forall c, In c change -> In c (d_outputs d2) /\ c_status c = NO_CONFIRMATIONS /\ c_tx c = Some (w_id tx)).
Proof.
  intros Ss Ci EA W NW G AF FR H.
  apply (send_conserves sort env min_confs commit_of ndebug Ss Ci nv d r id sc slate d2 coins d1 EA G); auto.
  - unfold GetAllAvailableCoins in G. destruct (n_tip nv) as [tip|]; [|discriminate].
    destruct (Refresh nv d) as (outs & d') eqn:R. injection G as <- <-. apply nodup_filter_coms.
    destruct (N.lt_ge_cases (n_height nv) (d_refresh d)) as [L|L].
    + rewrite refresh_behind in R by exact L. injection R as <- _. constructor.
    + pose proof (refresh_wf nv d outs d' W NW R) as (W' & _). destruct (refresh_spec nv d outs d' W NW L R) as (_ & <- & _). exact W'.
  - intros p a Ip. apply (FR (new_paths r (changes_wanted sc)) (at_index (r + N.of_nat (N.to_nat (changes_wanted sc)))) p a); auto.
    exact (next_paths_spec _ r).
Qed.

Definition demo_commit (p : KeyChainPath) (a : N) : bytes := p ++ [a].
Definition demo_node (h : N) (l : list OutputDataEntity) : NodeView := mkNode h (Some h) (fun c => option_map (fun _ => 5) (FindOutput l c)) [].
Definition demo_wallet (l : list OutputDataEntity) : WalletDB := mkDB l [] 1 0 (CreateAccounts 1000) [] [].
Definition demo_send sc l := Send sort_coins MAINNET 10 demo_commit true (demo_node 100 l) (demo_wallet l) [1] sc.
(** ALL with too little money: the change wraps around to about 2^64. *)
Theorem C37_all_refuted : exists l sc slate d2, demo_send sc l = (Ret slate, d2) /\ sc_strategy sc = ALL /\
  total l < s_amount slate /\ exists c, In c (d_outputs d2) /\ c_status c = NO_CONFIRMATIONS /\ total l < c_amount c.
Proof.
  exists [coin_of 1 5], (mkSend (Some 1000000000) 500000 1 ALL []).
  exists (mkSlate [1] STANDARD_SENT 1000000000 (mkFee 0 23000000) [([0; 0; 1], false); ([0; 0; 1000; 18446744072686551621], true)]).
  exists (snd (demo_send (mkSend (Some 1000000000) 500000 1 ALL []) [coin_of 1 5])).
  split; [vm_compute; reflexivity|]. split; [reflexivity|]. split; [reflexivity|].
  exists (mkCoin [0; 0; 1000] 0 [0; 0; 1000; 18446744072686551621] 18446744072686551621 NO_CONFIRMATIONS None (Some 1)).
  split; [vm_compute; auto|]. split; reflexivity.
Qed.
(** Sending an entire balance that does not pay for the fee: in a release build the amount wraps. *)
Theorem C37_entire_refuted : exists l sc slate d2, demo_send sc l = (Ret slate, d2) /\ sc_amount sc = None /\
  total l < s_amount slate.
Proof.
  exists [coin_of 1 5], (mkSend None 500000 1 SMALLEST []).
  exists (mkSlate [1] STANDARD_SENT 18446744073697051621 (mkFee 0 12500000) [([0; 0; 1], false)]).
  exists (snd (demo_send (mkSend None 500000 1 SMALLEST []) [coin_of 1 5])).
  split; [vm_compute; reflexivity|]. split; reflexivity.
Qed.
(** 255 change outputs: their number plus one wraps to zero in 8 bits, and the fee is the one for no output at all. *)
Theorem C37_255_refuted : exists l sc slate d2, demo_send sc l = (Ret slate, d2) /\ sc_numOutputs sc = 255 /\
  m_fee (s_fee slate) = fee_of (sc_feeBase sc) 1 0 1.
Proof.
  exists [coin_of 1 5000000000], (mkSend (Some 1000000000) 500000 255 SMALLEST []).
  exists (match fst (demo_send (mkSend (Some 1000000000) 500000 255 SMALLEST []) [coin_of 1 5000000000]) with Ret s => s | _ => mkSlate [] STANDARD_SENT 0 (mkFee 0 0) [] end).
  exists (snd (demo_send (mkSend (Some 1000000000) 500000 255 SMALLEST []) [coin_of 1 5000000000])).
  vm_compute. auto.
Qed.
(** Without change outputs whatever is left becomes the fee; above 2^40 the fee that is transmitted and
    signed is not the fee that was charged. *)
Theorem C37_fee_refuted : exists l sc slate d2, demo_send sc l = (Ret slate, d2) /\ affordable sc l /\
  omap fst (Fee_Deserialize (mkBB 0 (Fee_Serialize (s_fee slate)) 1)) <> Ret (s_fee slate).
Proof.
  exists [coin_of 1 3000000000000], (mkSend (Some 1000000000) 500000 0 SMALLEST []).
  exists (mkSlate [1] STANDARD_SENT 1000000000 (mkFee 0 2999000000000) [([0; 0; 1], false)]).
  exists (snd (demo_send (mkSend (Some 1000000000) 500000 0 SMALLEST []) [coin_of 1 3000000000000])).
  split; [vm_compute; reflexivity|]. split; [|vm_compute; discriminate].
  split; [discriminate|]. split; [reflexivity|]. unfold no_overflow. vm_compute. auto.
Qed.
Example C37_example :
  (forall p a p' a', demo_commit p a = demo_commit p' a' -> p = p') /\
  wf (demo_wallet some_coins) /\ node_wf (demo_node 100 some_coins) (demo_wallet some_coins) /\
  fst (GetAllAvailableCoins MAINNET 10 (demo_node 100 some_coins) (demo_wallet some_coins)) = Ret some_coins /\
  affordable (mkSend (Some 100000001) 500000 3 SMALLEST []) some_coins /\
  (forall ps a p x, next_paths 3 (CreateAccounts 1000) = Ret (ps, a) -> In p ps -> ~ In (demo_commit p x) (coms some_coins)) /\
  map c_amount (d_outputs (snd (demo_send (mkSend (Some 100000001) 500000 3 SMALLEST []) some_coins)))
    = [70000000; 20000000; 90000000; 30000000; 21500001; 21499999; 21499999].
Proof.
  split; [intros p a p' a'; apply app_inj_tail|].
  split; [split; [|split]; cbn; [|constructor|contradiction]; repeat constructor; cbn; intuition discriminate|].
  split; [split; [constructor|reflexivity]|]. split; [vm_compute; reflexivity|].
  split; [split; [discriminate|]; split; [reflexivity|]; unfold no_overflow; vm_compute; auto|].
  split; [|vm_compute; reflexivity].
  intros ps a p x E Ip. assert (Q : ps = [[0; 0; 1000]; [0; 0; 1001]; [0; 0; 1002]]) by (vm_compute in E; congruence). subst ps.
  cbn in Ip. intros H. cbn in H. intuition (subst; discriminate).
Qed.

(** *** C39 *)
(** The four numbers of the balance are the exact sums of the coins in each category, and the total is
    spendable plus awaiting plus immature, when all coins together are worth less than 2^64. *)
Theorem C39_stored_partial env min_confs d : total (d_outputs d) < W64 ->
  (forall o, In o (d_outputs d) -> match c_height o with Some x => x | None => 0 end + min_confs < W64) ->
  let b := Wallet_GetBalance env min_confs d in
  sum_of (counted_as env min_confs (d_refresh d) Spendable) (d_outputs d) (bal_spendable b) /\
  sum_of (counted_as env min_confs (d_refresh d) Awaiting) (d_outputs d) (bal_unconfirmed b) /\
  sum_of (counted_as env min_confs (d_refresh d) Immature) (d_outputs d) (bal_immature b) /\
  sum_of (counted_as env min_confs (d_refresh d) Locked) (d_outputs d) (bal_locked b) /\
  GetTotal b = bal_spendable b + bal_unconfirmed b + bal_immature b.
Proof. intros T H b. destruct (partition env min_confs (d_outputs d) (d_refresh d) T H) as (_ & Q). exact Q. Qed.
(** The balance shown after refreshing from the node, when the node is not behind the wallet: the same over
    the refreshed wallet, at the node's height. *)
Theorem C39_refreshed_partial env min_confs nv d b d' : wf d -> node_wf nv d -> d_refresh d <= n_height nv ->
  WalletImpl_GetBalance env min_confs nv d = (b, d') -> total (d_outputs d') < W64 ->
  (forall o, In o (d_outputs d') -> match c_height o with Some x => x | None => 0 end + min_confs < W64) ->
  bal_height b = n_height nv /\
  sum_of (counted_as env min_confs (n_height nv) Spendable) (d_outputs d') (bal_spendable b) /\
  sum_of (counted_as env min_confs (n_height nv) Awaiting) (d_outputs d') (bal_unconfirmed b) /\
  sum_of (counted_as env min_confs (n_height nv) Immature) (d_outputs d') (bal_immature b) /\
  sum_of (counted_as env min_confs (n_height nv) Locked) (d_outputs d') (bal_locked b) /\
  GetTotal b = bal_spendable b + bal_unconfirmed b + bal_immature b.
Proof.
  intros W NW LE E T H. unfold WalletImpl_GetBalance in E. destruct (Refresh nv d) as (outs & d0) eqn:R. injection E as <- ->.
  destruct (refresh_spec nv d outs d' W NW LE R) as (_ & EO & _ & _ & EH & _). rewrite EO in *. rewrite EH.
  exact (partition env min_confs outs (n_height nv) T H).
Qed.
(** No coin is in two categories; spent and cancelled coins are in none, coins awaiting confirmation,
    confirmed or locked in one. *)
Theorem C39_exclusive env min_confs h k k' o :
  counted_as env min_confs h k o -> counted_as env min_confs h k' o -> k = k'.
Proof. destruct k, k'; cbn; intros A B; try reflexivity; destruct (c_status o); intuition congruence. Qed.
Theorem C39_none env min_confs h k o : c_status o = SPENT \/ c_status o = CANCELED -> ~ counted_as env min_confs h k o.
Proof. intros [A|A]; destruct k; cbn; rewrite A; intuition discriminate. Qed.
Theorem C39_some env min_confs h o : c_status o = SPENDABLE \/ c_status o = NO_CONFIRMATIONS \/ c_status o = LOCKED ->
  exists k, counted_as env min_confs h k o.
Proof.
  intros [A|[A|A]].
  - assert (M : mature env min_confs h o \/ ~ mature env min_confs h o) by (unfold mature; destruct (_ =? _); lia).
    destruct M; [exists Spendable|exists Immature]; split; auto.
  - exists Awaiting. exact A.
  - exists Locked. exact A.
Qed.
(** A node that is behind the wallet's last refresh makes the refreshing balance zero everywhere. *)
Theorem C39_behind_refuted : exists nv d b, wf d /\ node_wf nv d /\
  WalletImpl_GetBalance MAINNET 10 nv d = (b, d) /\ b = mkBalance 200 0 0 0 0 /\
  bal_spendable (Wallet_GetBalance MAINNET 10 d) = 210000000.
Proof.
  exists (demo_node 100 some_coins), (mkDB some_coins [] 1 200 (CreateAccounts 1000) [] []), (mkBalance 200 0 0 0 0).
  split; [split; [|split]; cbn; [|constructor|contradiction]; repeat constructor; cbn; intuition discriminate|].
  split; [split; [constructor|reflexivity]|]. split; [|split]; vm_compute; reflexivity.
Qed.
(** A sum of 2^64 or more wraps. *)
Theorem C39_wrap_refuted : exists d, Forall (fun o => c_amount o < W64) (d_outputs d) /\
  bal_spendable (Wallet_GetBalance MAINNET 10 d) = 0.
Proof.
  exists (mkDB [coin_of 1 18446744073709551615; coin_of 2 1] [] 1 100 [] [] []). split; [repeat constructor|vm_compute; reflexivity].
Qed.
(** The kept status IMMATURE, still accepted when a wallet file is read, is counted nowhere until the next refresh. *)
Theorem C39_immature_status env min_confs h k o : c_status o = IMMATURE -> ~ counted_as env min_confs h k o.
Proof. intros A; destruct k; cbn; rewrite A; intuition discriminate. Qed.
Example C39_example :
  let c n a f s h := mkCoin [0; 0; n] f [0; 0; n] a s h None in
  let d := mkDB [c 1 10 0 SPENDABLE (Some 90); c 2 20 0 SPENDABLE (Some 91); c 3 30 1 SPENDABLE (Some 50);
                 c 4 40 0 NO_CONFIRMATIONS None; c 5 50 0 LOCKED (Some 3); c 6 60 0 SPENT (Some 3); c 7 70 0 CANCELED None]
                [] 1 100 (CreateAccounts 1000) [] [] in
  Wallet_GetBalance MAINNET 10 d = mkBalance 100 40 50 50 10 /\ GetTotal (Wallet_GetBalance MAINNET 10 d) = 100.
Proof. vm_compute. auto. Qed.

Definition coin_theorems := (@C36_distinct, @C36_covers_partial, @C36_fewest_complete, @C36_fewest_minimal, @C36_smallest_selected,
  @C36_smallest_complete, @C36_custom, @C36_total, @C36_smallest_refuted, @C36_all_refuted, @C36_wrap_refuted,
  @C37_conserves_partial, @C37_all_refuted, @C37_entire_refuted, @C37_255_refuted, @C37_fee_refuted,
  @C39_stored_partial, @C39_refreshed_partial, @C39_exclusive, @C39_none, @C39_some, @C39_behind_refuted, @C39_wrap_refuted,
  @C39_immature_status).
Print Assumptions coin_theorems.
