(** Property C54: a node that asks another for headers gets the ones it is missing. [Blake2b], the bad block list and the siphash
    keys are arbitrary. *)
From Verif Require Import Base Bytes FileModel MMRIndexModel MMRHashModel MMRHashSpec CodecModel ConsensusModel CuckooModel DifficultyModel
  CacheModel HeaderModel HeaderSpec HeaderProofs HeaderInv HeaderWork MMRHashProps DifficultyProps HeaderProps LocatorModel LocatorSpec LocatorProofs.
Local Open Scope N_scope.

(** A request names at most 20 heights: the tip, then every time twice as far back, and the genesis block. *)
Theorem C54_heights tip : locator_pattern tip (GetLocatorHeights tip) /\ (length (GetLocatorHeights tip) <= 20)%nat.
Proof.
  destruct (heights_exact tip) as (k & (K1 & K2 & K3) & E). split.
  - exists k. repeat split; [exact E | exact K1 | exact K3 | exact K2].
  - rewrite E, app_length, map_length, seq_length. cbn [length]. lia.
Qed.

(** After any sequence of headers, batches and restarts the node satisfies what the theorems below ask for, if no two stored headers
    share a hash and there are not 2^62 of them. *)
Theorem C54_reachable Blake2b BAD_BLOCKS env pow_keys genesis fuel es rs s :
  h_height genesis = 0 -> Forall plausible es -> handle_all Blake2b BAD_BLOCKS env pow_keys fuel genesis es (started Blake2b genesis) = Some (rs, s) ->
  unique_hashes s -> N.of_nat (length (best s)) < 4611686018427387904 -> exists hs, node s hs /\ hd_error hs = Some genesis.
Proof.
  intros H0 Hp E U L. assert (Sg : small genesis) by (unfold small; lia).
  destruct (handle_all_inv _ _ _ _ _ _ _ _ _ _ _ (started_inv Blake2b env genesis Sg H0) Sg Hp E) as [hs Iv].
  exists hs. split; [|apply Iv]. split; [apply Iv|]. split; [split; apply Iv|]. split; [exact U|]. split; [|split].
  - intros ->. pose proof (i_genesis _ _ _ _ Iv) as G. discriminate.
  - rewrite <- (i_best _ _ _ _ Iv), map_length in L. exact L.
  - apply Iv.
Qed.

(** A node asked with any list of hashes answers with its best chain from just after the first header it knows among them,
    at most 512 headers, and with nothing if it knows none of them. *)
Theorem C54_answer r hs hashes : node r hs ->
  (forall c, first_known r hashes c -> h_height c < 4611686018427387904 ->
    LocateHeaders r hashes = firstn 512 (skipn (N.to_nat (h_height c) + 1) hs)) /\
  (Forall (fun k => stored r k = None) hashes -> LocateHeaders r hashes = []).
Proof.
  intros H. split.
  - intros c K B. apply (locate_spec r hs hashes c H B K).
  - intros F. unfold LocateHeaders. rewrite (find_unknown r hs hashes H F). reflexivity.
Qed.

Lemma nth_error_skipn {A} (l : list A) : forall n i, nth_error (skipn n l) i = nth_error l (n + i).
Proof. induction l as [|a l IH]; intros [|n] i; try reflexivity; [destruct i; reflexivity | apply IH]. Qed.

Section Props.
Variable Blake2b : bytes -> bytes.
Variable BAD_BLOCKS : bytes -> bool.
Variable env : Environment.
Variable pow_keys : BlockHeader -> sip.
Notation round now r s := (SyncRound Blake2b BAD_BLOCKS env pow_keys now r s).

(** If the chains separate at most 511 headers below the requester's tip, the answer starts on the common part and contains the
    other node's first header after it. *)
Theorem C54_reaches_fork s hs r hs' f h : node s hs -> node r hs' -> fork_at f hs r hs' -> (length hs <= f + 512)%nat ->
  nth_error hs' (S f) = Some h ->
  In h (Ask s r) /\ exists first, hd_error (Ask s r) = Some first /\ h_height first <= N.of_nat f + 1.
Proof.
  intros H H' F L N1. destruct (ask_fork s hs r hs' f H H' F) as (pre & loc & post & _ & _ & P2 & P3 & ->).
  assert (P4 : N.of_nat f - loc <= 511) by (destruct F as (F1 & _); destruct P3; lia).
  assert (LL : (S f < length hs')%nat) by (apply nth_error_Some; congruence).
  pose proof H' as (_ & _ & _ & _ & _ & HH). split.
  - replace h with (nth (S f - (N.to_nat loc + 1)) (firstn 512 (skipn (N.to_nat loc + 1) hs')) h).
    + apply nth_In. rewrite firstn_length, skipn_length. lia.
    + apply nth_error_nth. rewrite nth_firstn. replace (_ <? 512)%nat with true by (symmetry; apply Nat.ltb_lt; lia).
      rewrite nth_error_skipn. rewrite <- N1. f_equal. lia.
  - destruct (nth_error hs' (N.to_nat loc + 1)) as [a|] eqn:A; [|apply nth_error_None in A; lia].
    exists a. rewrite (skipn_nth _ _ _ A). split; [reflexivity|]. rewrite (HH _ _ A). lia.
Qed.

(** If the other node's chain continues the requester's, a round either throws or adds the next 512 headers, all that are left if
    fewer are. *)
Theorem C54_round now s hs r more status s' : env <> AUTOMATED_TESTING ->
  node s hs -> node r (hs ++ more) -> unique_between s r -> round now r s = (Ret status, s') ->
  Ask s r = firstn 512 more /\ node s' (hs ++ firstn 512 more).
Proof.
  intros He H H' U E. split; [exact (ask_prefix Blake2b BAD_BLOCKS pow_keys s hs r (hs ++ more) more H H' eq_refl)|].
  exact (proj1 (LocatorProofs.round Blake2b BAD_BLOCKS env pow_keys now s hs r more status s' He H H' U E)).
Qed.

(** So a node whose chain is [m] headers shorter has the other's whole best chain after m / 512 rounds, rounded up. *)
Theorem C54_catches_up n s hs r more s' : env <> AUTOMATED_TESTING ->
  node s hs -> node r (hs ++ more) -> unique_between s r -> rounds Blake2b BAD_BLOCKS env pow_keys r n s s' -> (length more <= 512 * n)%nat ->
  best s' = best r.
Proof.
  intros He H H' U R. revert hs more H H' U. induction R as [s|n s s1 s' now status E R IH]; intros hs more H H' U L.
  - destruct more; [|cbn in L; lia]. rewrite app_nil_r in H'. destruct H as (_ & (B & _) & _), H' as (_ & (B' & _) & _). congruence.
  - destruct (LocatorProofs.round Blake2b BAD_BLOCKS env pow_keys now s hs r more status s1 He H H' U E) as [H1 U1].
    apply (IH (hs ++ firstn 512 more) (skipn 512 more)); [exact H1 | | exact U1 |].
    + rewrite <- app_assoc, firstn_skipn. exact H'.
    + rewrite skipn_length. lia.
Qed.

(** If no named height is among the 512 up to the fork, the answer holds only headers the requester has: whatever more work the other
    chain has, the round changes nothing, and so does every later one. *)
Theorem C54_deep_fork_stalls now s hs r hs' f : node s hs -> node r hs' -> fork_at f hs r hs' ->
  Forall (fun x => x + 512 <= N.of_nat f \/ N.of_nat f < x) (GetLocatorHeights (N.of_nat (length hs) - 1)) ->
  snd (round now r s) = s.
Proof. intros H H' F G. destruct (stalls Blake2b BAD_BLOCKS env pow_keys now s hs r hs' f H H' F G) as [o ->]. reflexivity. Qed.
End Props.

(** * Two nodes of the toy network *)
(** A node that also has the requester's tip, on a fork of its own chain that it left, answers from the height of that tip on its own
    chain. The requester cannot use the answer: it throws, its stores stay as they are, though the other chain has more work. *)
Theorem C54_known_fork_refuted : exists es es' rs rs' s r now,
  Forall plausible es /\ Forall plausible es' /\ ex_run es ex_start = Some (rs, s) /\ ex_run es' ex_start = Some (rs', r) /\
  Forall (eq (Ret SUCCESS)) rs /\ Forall (eq (Ret SUCCESS)) rs' /\ work s < work r /\
  SyncRound toy_hash no_bad MAINNET ex_keys now r s = (Throw, s).
Proof.
  exists [Header ex_now f1], [Header ex_now h1; Header ex_now f1; Header ex_now h2], [Ret SUCCESS],
    [Ret SUCCESS; Ret SUCCESS; Ret SUCCESS],
    (after [Header ex_now f1]), (after [Header ex_now h1; Header ex_now f1; Header ex_now h2]), ex_now.
  split; [repeat constructor|]. split; [repeat constructor|]. split; [vm_compute; reflexivity|]. split; [vm_compute; reflexivity|].
  split; [repeat constructor|]. split; [repeat constructor|]. split; vm_compute; reflexivity.
Qed.

(** A node with only the genesis header asks one that has two more: it ends with the same chain. *)
Lemma heights_checked hs : map h_height hs = map N.of_nat (seq 0 (length hs)) -> forall i h, nth_error hs i = Some h -> h_height h = N.of_nat i.
Proof.
  intros E i h N1. pose proof (f_equal (fun l => nth_error l i) E) as Z. cbv beta in Z. rewrite !nth_error_map, N1 in Z. cbn [option_map] in Z.
  assert (i < length hs)%nat by (apply nth_error_Some; congruence).
  rewrite (nth_error_nth' (seq 0 (length hs)) 0%nat) in Z by (rewrite seq_length; lia). rewrite seq_nth in Z by lia. cbn in Z. congruence.
Qed.
Example C54_example : node ex_start [ex_genesis] /\ node (after [Header ex_now h1; Header ex_now h2]) ([ex_genesis] ++ [h1; h2]) /\
  unique_between ex_start (after [Header ex_now h1; Header ex_now h2]) /\
  exists s', rounds toy_hash no_bad MAINNET ex_keys (after [Header ex_now h1; Header ex_now h2]) 1 ex_start s' /\ best s' = [ex_hash 0; ex_hash 1; ex_hash 2].
Proof.
  assert (D0 : headers_db ex_start = [(ex_hash 0, ex_genesis)] /\ best ex_start = [ex_hash 0]) by (vm_compute; split; reflexivity).
  assert (D2 : headers_db (after [Header ex_now h1; Header ex_now h2]) = [(ex_hash 2, h2); (ex_hash 1, h1); (ex_hash 0, ex_genesis)] /\
  best (after [Header ex_now h1; Header ex_now h2]) = [ex_hash 0; ex_hash 1; ex_hash 2]) by (vm_compute; split; reflexivity).
  destruct D0 as [D0 B0]. destruct D2 as [D2 B2].
  assert (U : unique_between ex_start (after [Header ex_now h1; Header ex_now h2])).
  { intros k h h' H H'. rewrite D0, D2 in H, H'. cbn [In app] in H, H'.
    repeat match goal with H : _ \/ _ |- _ => destruct H | H : False |- _ => destruct H end;
      repeat match goal with H : (_, _) = (_, _) |- _ => injection H as H; subst end; try reflexivity; discriminate. }
  split; [|split; [|split]].
  - split; [vm_compute; repeat split|]. split; [split; [rewrite B0; reflexivity|]|].
    + intros h [<-|[]]. rewrite D0. left. reflexivity.
    + split; [intros k h h' H H'; apply (U k h h'); apply in_or_app; left; assumption|]. split; [discriminate|]. split; [vm_compute; reflexivity|].
      apply heights_checked. vm_compute. reflexivity.
  - split; [vm_compute; repeat split|]. split; [split; [rewrite B2; reflexivity|]|].
    + intros h [<-|[<-|[<-|[]]]]; rewrite D2; cbn [In]; auto.
    + split; [intros k h h' H H'; apply (U k h h'); apply in_or_app; right; assumption|]. split; [discriminate|]. split; [vm_compute; reflexivity|].
      apply heights_checked. vm_compute. reflexivity.
  - exact U.
  - exists (snd (SyncRound toy_hash no_bad MAINNET ex_keys ex_now (after [Header ex_now h1; Header ex_now h2]) ex_start)). split.
    + eapply one_round; [|apply no_round]. instantiate (1 := SUCCESS). instantiate (1 := ex_now). vm_compute. reflexivity.
    + vm_compute. reflexivity.
Qed.

(** A requester at height 5000 and a chain that leaves its own at height 3900, for C54_deep_fork_stalls. *)
Definition d_header (a : N) (n : nat) : BlockHeader :=
  mkHeader 1 (N.of_nat n) 0 [] [] [] [] [] [] 0 0 0 0 0 (mkPoW 24 [] [a; N.of_nat n]).
Definition d_chain (a : N) (fork tip : nat) : list BlockHeader := map (d_header 0) (seq 0 (S fork)) ++ map (d_header a) (seq (S fork) (tip - fork)).
Definition d_node (hs : list BlockHeader) : cstate :=
  let l := map BlockHeader_GetHash hs in let db := map entry hs in
  mkState (mkVer l l) (mkVer l l) (mkVer db db) (mkVer [] []) false (cache_new 64).

Lemma d_nth a fork tip i h : nth_error (d_chain a fork tip) i = Some h ->
  (i <= fork)%nat /\ h = d_header 0 i \/ (fork < i)%nat /\ (i <= tip)%nat /\ h = d_header a i.
Proof.
  unfold d_chain. intros E. rewrite nth_app, map_length, seq_length in E. destruct (i <? S fork)%nat eqn:L.
  - apply Nat.ltb_lt in L. left. split; [lia|]. rewrite nth_error_map in E.
    rewrite (nth_error_nth' (seq 0 (S fork)) 0%nat) in E by (rewrite seq_length; lia). rewrite seq_nth in E by lia. cbn [option_map Nat.add] in E. congruence.
  - apply Nat.ltb_ge in L. right. assert (B : (i - S fork < tip - fork)%nat).
    { assert (i - S fork < length (map (d_header a) (seq (S fork) (tip - fork))))%nat by (apply nth_error_Some; congruence). rewrite map_length, seq_length in H. exact H. }
    split; [lia|]. split; [lia|]. rewrite nth_error_map in E.
    rewrite (nth_error_nth' (seq (S fork) (tip - fork)) 0%nat) in E by (rewrite seq_length; lia). rewrite seq_nth in E by lia. cbn [option_map] in E.
    replace (S fork + (i - S fork))%nat with i in E by lia. congruence.
Qed.
Lemma d_in_db hs k h : In (k, h) (headers_db (d_node hs)) <-> In h hs /\ k = BlockHeader_GetHash h.
Proof.
  unfold headers_db, d_node. cbn [s_db committed]. rewrite in_map_iff. split.
  - intros (x & E & Hi). unfold entry in E. injection E as <- <-. auto.
  - intros (Hi & ->). exists h. auto.
Qed.
Lemma d_length a fork tip : (fork <= tip)%nat -> length (d_chain a fork tip) = S tip.
Proof. intros L. unfold d_chain. rewrite app_length, !map_length, !seq_length. lia. Qed.
Lemma d_is_node a fork tip : (fork <= tip)%nat -> N.of_nat tip < 4611686018427387903 -> node (d_node (d_chain a fork tip)) (d_chain a fork tip).
Proof.
  intros L B. assert (HH : forall i h, nth_error (d_chain a fork tip) i = Some h -> h_height h = N.of_nat i).
  { intros i h E. destruct (d_nth _ _ _ _ _ E) as [[_ ->]|[_ [_ ->]]]; reflexivity. }
  split; [repeat split|]. split; [split; [reflexivity|]|].
  - intros h Hi. apply d_in_db. auto.
  - split; [|split; [|split]].
    + intros k h h' H H'. apply d_in_db in H, H'. destruct H as [H ->], H' as [H' E]. apply In_nth_error in H, H'. destruct H as [i H], H' as [j H'].
      pose proof (d_nth _ _ _ _ _ H) as X. pose proof (d_nth _ _ _ _ _ H') as Y.
      destruct X as [[X1 ->]|[X1 [_ ->]]], Y as [[Y1 ->]|[Y1 [_ ->]]]; cbn in E; injection E as E; try (apply Nat2N.inj in E; subst; reflexivity);
        try (intros; match goal with Z : N.of_nat _ = N.of_nat _ |- _ => apply Nat2N.inj in Z; subst; first [reflexivity | lia] end).
    + intros Z. pose proof (d_length a fork tip L) as W. rewrite Z in W. discriminate.
    + rewrite d_length by exact L. lia.
    + exact HH.
Qed.
Example C54_deep_fork_case :
  let s := d_chain 1 (N.to_nat 3900) (N.to_nat 5000) in let r := d_chain 2 (N.to_nat 3900) (N.to_nat 6000) in
  node (d_node s) s /\ node (d_node r) r /\ fork_at (N.to_nat 3900) s (d_node r) r /\
  Forall (fun x => x + 512 <= N.of_nat (N.to_nat 3900) \/ N.of_nat (N.to_nat 3900) < x) (GetLocatorHeights (N.of_nat (length s) - 1)).
Proof.
  cbv zeta. split; [apply d_is_node; lia|]. split; [apply d_is_node; lia|]. split.
  - split; [rewrite d_length; lia|]. split; [rewrite d_length; lia|]. split.
    + unfold d_chain. rewrite !firstn_app, !map_length, !seq_length, Nat.sub_diag. cbn [firstn]. reflexivity.
    + intros i h L E. destruct (d_nth _ _ _ _ _ E) as [[X _]|[_ [_ ->]]]; [lia|]. unfold stored.
      destruct (db_find (headers_db (d_node (d_chain 2 (N.to_nat 3900) (N.to_nat 6000)))) (BlockHeader_GetHash (d_header 1 i))) as [x|] eqn:Fd; [|reflexivity].
      apply db_find_in, d_in_db in Fd. destruct Fd as [Fd K]. apply In_nth_error in Fd. destruct Fd as [j Fd].
      destruct (d_nth _ _ _ _ _ Fd) as [[_ ->]|[_ [_ ->]]]; cbn in K; discriminate.
  - rewrite d_length by lia. replace (N.of_nat (S (N.to_nat 5000)) - 1) with 5000 by lia. rewrite N2Nat.id.
    replace (GetLocatorHeights 5000) with [5000; 4998; 4994; 4986; 4970; 4938; 4874; 4746; 4490; 3978; 2954; 906; 0] by (vm_compute; reflexivity).
    repeat (constructor; [lia|]). constructor.
Qed.

Definition locator_theorems := (@C54_heights, @C54_reachable, @C54_answer, @C54_reaches_fork, @C54_round, @C54_catches_up, @C54_deep_fork_stalls, @C54_known_fork_refuted).
Print Assumptions locator_theorems.
