(** C34, C35: the caches and the range proof cache. *)
From Verif Require Import Base Bytes CacheModel CacheSpec CacheProofs.
Local Open Scope N_scope.

(** * C34 *)
(** Every sequence of calls on a new cache is free of undefined behaviour and every call returns what the
    specification says: the [cap] keys last used (LRU) or last arrived (FIFO) are cached, with the value last
    put for each. *)
Theorem C34_calls_return_as_specified : forall (K V : Type) (eqb : K -> K -> bool) p cap (os : list (call K V)),
  (forall a b, eqb a b = true <-> a = b) -> 1 <= cap < W64 - 1 ->
  exists rs c, cache_run eqb p (cache_new cap) os = Ret (rs, c) /\ as_expected eqb p cap [] os rs.
Proof. intros K V eqb p cap os S Hc. apply (run_ok K V eqb S p cap os Hc [] (cache_new cap)). apply Inv_init. lia. Qed.

(** A lookup returns the value last put for the key. *)
Theorem C34_lookup_returns_last_put : forall (K V : Type) (eqb : K -> K -> bool) p cap (os : list (call K V)) rs c k v c',
  (forall a b, eqb a b = true <-> a = b) -> 1 <= cap < W64 - 1 ->
  cache_run eqb p (cache_new cap) os = Ret (rs, c) -> Get eqb p c k = Ret (v, c') ->
  last_put eqb (combine os rs) k = Some v.
Proof.
  intros K V eqb p cap os rs c k v c' S Hc R G.
  destruct (run_inv K V eqb S p cap os Hc [] (cache_new cap) (Inv_init _ _ _ p cap ltac:(lia)) rs c R) as [I _].
  pose proof (get_ok K V eqb S p cap _ c k Hc I) as H.
  destruct (map_find eqb (cache_items_map c) k) as [w|]; [|congruence].
  destruct H as [L [c1 [E _]]]. rewrite G in E. injection E as <- <-. exact L.
Qed.

(** The number of entries never exceeds the capacity. *)
Theorem C34_size_bounded : forall (K V : Type) (eqb : K -> K -> bool) p cap (os : list (call K V)) rs c,
  (forall a b, eqb a b = true <-> a = b) -> 1 <= cap < W64 - 1 ->
  cache_run eqb p (cache_new cap) os = Ret (rs, c) -> Size c <= cap.
Proof.
  intros K V eqb p cap os rs c S Hc R.
  destruct (run_inv K V eqb S p cap os Hc [] (cache_new cap) (Inv_init _ _ _ p cap ltac:(lia)) rs c R) as [I _].
  unfold Size. rewrite (Inv_length _ _ _ _ _ _ _ I), (inv_queue _ _ _ _ _ _ _ I).
  pose proof (kept_len K V eqb p cap ([] ++ combine os rs)). lia.
Qed.

(** An entry disappears in a Put only if the key is new and the cache full, and it is the one least recently
    used (LRU) or the first to have arrived (FIFO): every other entry is newer. *)
Theorem C34_evicts_in_policy_order : forall (K V : Type) (eqb : K -> K -> bool) p cap (os : list (call K V)) rs c k v c' x,
  (forall a b, eqb a b = true <-> a = b) -> 1 <= cap < W64 - 1 ->
  cache_run eqb p (cache_new cap) os = Ret (rs, c) -> Put eqb p c k v = Ret c' ->
  Cached eqb c x = true -> Cached eqb c' x = false ->
  Cached eqb c k = false /\ Size c = cap /\
  forall y, y <> x -> Cached eqb c y = true ->
    newer (match p with FIFO => arrivals eqb cap (combine os rs) | LRU => uses (combine os rs) end) y x.
Proof.
  intros K V eqb p cap os rs c k v c' x S Hc R P Cx Nx.
  destruct (run_inv K V eqb S p cap os Hc [] (cache_new cap) (Inv_init _ _ _ p cap ltac:(lia)) rs c R) as [I _].
  apply (evict K V eqb S p cap _ c c' k v x Hc I P Cx Nx).
Qed.

Definition three_then_touch : list (call N N) := [CPut 1 10; CPut 2 20; CGet 1; CPut 3 30].
Example C34_example_lru : exists c, cache_run N.eqb LRU (cache_new 2) (three_then_touch ++ [CGet 1; CGet 2; CGet 3; CSize]) =
  Ret ([RUnit; RUnit; RValue 10; RUnit; RValue 10; RMissing; RValue 30; RNat 2], c).
Proof. eexists. vm_compute. reflexivity. Qed.
Example C34_example_fifo : exists c, cache_run N.eqb FIFO (cache_new 2) (three_then_touch ++ [CGet 1; CGet 2; CGet 3; CSize]) =
  Ret ([RUnit; RUnit; RValue 10; RUnit; RMissing; RValue 20; RValue 30; RNat 2], c).
Proof. eexists. vm_compute. reflexivity. Qed.

(** * C35 *)
(** Whatever batches were verified before, if a batch is accepted then each of its commitments was verified,
    in this batch or in an earlier one, with some proof. The full property (with the proof at hand) is refuted
    below: the cache remembers commitments, not proofs. *)
Theorem C35_commitments_verified_partial : forall parses verifies bs c l c' k p,
  verify_batches parses verifies proofs_cache bs = Ret c -> VerifyBulletproofs parses verifies c l = Ret (true, c') ->
  In (k, p) l -> checked verifies (bs ++ [l]) k.
Proof.
  intros parses verifies bs c l c' k p B V H.
  pose proof (batches_ok parses verifies bs [] proofs_cache c (good_init _) B) as G. cbn in G.
  pose proof (verify_ok parses verifies bs c l G) as W. rewrite V in W. destruct W as [_ W].
  destruct (W eq_refl k p H) as [C|C].
  - destruct G as [_ G]. destruct (G k C) as [l0 [p0 [A [I E]]]]. exists l0, p0. split; [apply in_or_app; auto|auto].
  - exists l, p. split; [apply in_or_app; right; left; reflexivity|auto].
Qed.

(** A commitment that no earlier batch verified is accepted only with a proof that verifies, read with the
    length of the batch's first proof; if all proofs of the batch have one length, it is the proof itself. *)
Theorem C35_new_commitments_need_their_proof_partial : forall parses verifies bs c l c' k p,
  verify_batches parses verifies proofs_cache bs = Ret c -> VerifyBulletproofs parses verifies c l = Ret (true, c') ->
  In (k, p) l -> ~ checked verifies bs k ->
  verifies k (cut l p) = true /\ ((forall e, In e l -> length (snd e) = length p) -> verifies k p = true).
Proof.
  intros parses verifies bs c l c' k p B V H N.
  pose proof (batches_ok parses verifies bs [] proofs_cache c (good_init _) B) as G. cbn in G.
  pose proof (verify_ok parses verifies bs c l G) as W. rewrite V in W. destruct W as [_ W].
  assert (E : verifies k (cut l p) = true).
  { destruct (W eq_refl k p H) as [C|C]; [|exact C]. destruct G as [_ G]. destruct (N (G k C)). }
  split; [exact E|]. intros L. unfold cut in E. destruct l as [|[k0 p0] l0]; [contradiction|]. cbn [hd snd] in E.
  rewrite (L (k0, p0) (or_introl eq_refl) : length p0 = length p), firstn_all in E. exact E.
Qed.

(** A batch of proofs that verify, all of one length, is accepted whatever the cache holds. *)
Theorem C35_valid_batch_accepted : forall parses verifies bs c l,
  verify_batches parses verifies proofs_cache bs = Ret c -> l <> [] ->
  (forall k p, In (k, p) l -> parses k = true /\ verifies k p = true /\ length p = length (snd (hd ([], []) l))) ->
  exists c', VerifyBulletproofs parses verifies c l = Ret (true, c').
Proof.
  intros parses verifies bs c l B NE H.
  pose proof (batches_ok parses verifies bs [] proofs_cache c (good_init _) B) as G. cbn in G.
  destruct l as [|[k0 p0] l0]; [contradiction|]. cbn [hd snd] in H.
  unfold VerifyBulletproofs. set (l := (k0, p0) :: l0) in *. destruct (select_ok parses verifies _ l c G) as [c1 [E [G1 _]]]. rewrite E. cbn [obind fst snd].
  remember (filter (fun e => negb (Cached bytes_eqb c (fst e))) l) as todo eqn:Et.
  assert (SUB : forall k p, In (k, p) todo -> In (k, p) l). { intros k p Hi. rewrite Et in Hi. apply filter_In in Hi. tauto. }
  destruct todo as [|e t]; [eauto|].
  replace (forallb (fun e => parses (fst e)) (e :: t)) with true.
  2:{ symmetry. apply forallb_forall. intros [k p] Hi. apply (H k p (SUB k p Hi)). }
  rewrite (multi_fault parses).
  2:{ intros [k p] Hi. destruct (H k p (SUB k p Hi)) as [_ [_ L]]. cbn. lia. }
  cbn [obind].
  replace (forallb (fun e => verifies (fst e) (firstn (length p0) (snd e))) (e :: t)) with true.
  2:{ symmetry. apply forallb_forall. intros [k p] Hi. destruct (H k p (SUB k p Hi)) as [_ [V L]]. cbn [fst snd].
      rewrite <- L, firstn_all. exact V. }
  destruct (add_all_ok parses verifies (fun _ => True) (e :: t) c1) as [c2 [-> _]]; [|auto|].
  - apply good_weaken with (2 := G1). auto.
  - cbn [obind]. eauto.
Qed.

(** Once a commitment was verified with one proof, any other bytes are accepted as its proof. *)
Theorem C35_unverified_proof_accepted_refuted : forall (parses : bytes -> bool) (verifies : bytes -> bytes -> bool) k p q,
  parses k = true -> verifies k p = true ->
  exists c c', verify_batches parses verifies proofs_cache [[(k, p)]] = Ret c /\
               VerifyBulletproofs parses verifies c [(k, q)] = Ret (true, c').
Proof.
  intros parses verifies k p q P V.
  assert (E : VerifyBulletproofs parses verifies proofs_cache [(k, p)] = Ret (true, mkCache [(k, k)] [k] 3000)).
  { unfold VerifyBulletproofs. change (select proofs_cache [(k, p)]) with (Ret ([(k, p)], proofs_cache)).
    cbn [obind fst snd forallb verify_multi]. rewrite P. cbn [andb]. rewrite Nat.ltb_irrefl, firstn_all, V. reflexivity. }
  eexists _, _. split.
  - unfold verify_batches, after_verify. rewrite E. cbn [obind]. reflexivity.
  - unfold VerifyBulletproofs, select, WasAlreadyVerified, Cached, Get, policy_touch. cbn [cache_items_map map_find].
    rewrite bytes_eqb_refl. cbn [queue unlink]. rewrite bytes_eqb_refl. cbn [obind fst snd]. rewrite bytes_eqb_refl. reflexivity.
Qed.

(** A transaction without outputs gives an empty batch: undefined behaviour. *)
Theorem C35_no_outputs_refuted : forall parses verifies c, VerifyBulletproofs parses verifies c [] = Fault.
Proof. reflexivity. Qed.

(** Two new commitments, the second with a shorter proof: the proof is read out of bounds. *)
Theorem C35_short_proof_refuted : forall (parses : bytes -> bool) verifies k1 p1 k2 p2,
  parses k1 = true -> parses k2 = true -> (length p2 < length p1)%nat ->
  VerifyBulletproofs parses verifies proofs_cache [(k1, p1); (k2, p2)] = Fault.
Proof.
  intros parses verifies k1 p1 k2 p2 P1 P2 L. unfold VerifyBulletproofs.
  change (select proofs_cache [(k1, p1); (k2, p2)]) with (Ret ([(k1, p1); (k2, p2)], proofs_cache)).
  cbn [obind fst snd forallb verify_multi]. rewrite P1, P2. cbn [andb]. rewrite Nat.ltb_irrefl.
  destruct (Nat.ltb_spec (length p2) (length p1)); [reflexivity|lia].
Qed.

(** A verifier that accepts a single pair; a history with a rejected and an accepted batch. *)
Definition only (k p : bytes) : bytes -> bytes -> bool := fun a b => (bytes_eqb a k && bytes_eqb b p)%bool.
Example C35_example : exists c c', verify_batches (fun _ => true) (only [8] [1; 2]) proofs_cache [[([8], [1; 3])]; [([8], [1; 2])]] = Ret c /\
  VerifyBulletproofs (fun _ => true) (only [8] [1; 2]) c [([8], [1; 2])] = Ret (true, c').
Proof. eexists _, _. split; vm_compute; reflexivity. Qed.
Example C35_example_rejected : exists c, VerifyBulletproofs (fun _ => true) (only [8] [1; 2]) proofs_cache [([8], [1; 3])] = Ret (false, c).
Proof. eexists. vm_compute. reflexivity. Qed.

Print Assumptions C34_calls_return_as_specified.
Print Assumptions C34_lookup_returns_last_put.
Print Assumptions C34_size_bounded.
Print Assumptions C34_evicts_in_policy_order.
Print Assumptions C35_commitments_verified_partial.
Print Assumptions C35_new_commitments_need_their_proof_partial.
Print Assumptions C35_valid_batch_accepted.
Print Assumptions C35_unverified_proof_accepted_refuted.
Print Assumptions C35_no_outputs_refuted.
Print Assumptions C35_short_proof_refuted.
