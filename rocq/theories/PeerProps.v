(** C61: whom a node connects to, accepts, bans and recommends, and how its connections end. *)
From Verif Require Import Base PeerModel PeerSpec PeerProofs.
Local Open Scope N_scope.

(** A new connection goes to a known peer that is not banned, not connected, and was not tried in the last five minutes; the attempt is
    noted, and nothing else changes. *)
Theorem C61_choice c now r1 r2 ps x ps' : GetNewPeer c now r1 r2 ps = (x, ps') ->
  match x with
  | Some a => exists p, In p ps /\ p_addr p = a /\ ready now p /\ ps' = modify a (SetAttempt now) ps
  | None => ps' = ps
  end.
Proof. destruct x as [a|]; intros E; [exact (new_sound c now r1 r2 ps a ps' E) | exact (new_none c now r1 r2 ps ps' E)]. Qed.

(** If nobody is banned: whenever there is such a peer one is found, and one with the wanted capability if there is one. *)
Theorem C61_found_partial c now ps p : Forall (fun p => (p_lastBan p + 10800 <= now)%Z) ps -> In p ps -> ready now p ->
  forall r1 r2, exists a ps', GetNewPeer c now r1 r2 ps = (Some a, ps') /\
    (HasCapability (p_capabilities p) c = true -> exists q, In q ps /\ p_addr q = a /\ HasCapability (p_capabilities q) c = true).
Proof.
  intros NB I R r1 r2. assert (NB' : Forall (fun p => IsBanned now p = false) ps).
  { eapply Forall_impl; [|exact NB]. intros q Q. cbn beta in Q. apply Z.ltb_ge. unfold BAN_WINDOW. lia. }
  unfold GetNewPeer. destruct (GetPeersWithCapability c 1 true now r1 ps) as [l1 q1] eqn:E1.
  pose proof (search_sound _ _ _ _ _ _ _ E1) as [[-> ->]|(q & J & -> & _ & H & ->)].
  - destruct (GetPeersWithCapability UNKNOWN 1 true now r2 ps) as [l2 q2] eqn:E2.
    pose proof (search_sound _ _ _ _ _ _ _ E2) as [[-> ->]|(q & J & -> & _ & H & ->)].
    + exfalso. exact (get_complete _ _ _ _ _ p E2 NB' I (unknown_all _) R).
    + eexists _, _. split; [reflexivity|]. intros H'. exfalso. exact (get_complete _ _ _ _ _ p E1 NB' I H' R).
  - eexists _, _. split; [reflexivity|]. intros _. exists q. auto.
Qed.

(** False in general: the search does not get past a banned peer. With k banned peers before one that could be connected to, that one is
    found from only one of the k + 2 places where the search may start. *)
Fixpoint banned_peers (k : nat) (now : Z) : list peer := match k with O => [] | S k' => banned_peers k' now ++ [mkPeer (N.of_nat k') true false 6 now now 0] end.
Definition crowd (k : nat) (now : Z) : list peer := banned_peers k now ++ [mkPeer (N.of_nat k) false false 6 0 0 0].
Lemma banned_length k now : length (banned_peers k now) = k.
Proof. induction k as [|k IH]; [reflexivity|]. cbn [banned_peers]. rewrite app_length, IH. cbn. lia. Qed.
Lemma banned_nth k now : forall i, (i < k)%nat -> exists p, nth_error (banned_peers k now) i = Some p /\ p_lastBan p = now.
Proof.
  induction k as [|k IH]; intros i L; [lia|]. cbn [banned_peers]. destruct (Nat.eq_dec i k) as [->|D].
  - rewrite nth_error_app2 by (rewrite banned_length; lia). rewrite banned_length, Nat.sub_diag. eexists. split; reflexivity.
  - destruct (IH i ltac:(lia)) as (p & N & B). exists p. split; [apply nth_app, N | exact B].
Qed.
Theorem C61_found_refuted k now : (10800 < now)%Z -> (0 < k)%nat -> exists ps, length ps = S k /\ (exists p, In p ps /\ ready now p) /\
  forall r1 r2 c, (r1 mod (k + 2) <> k)%nat -> (r2 mod (k + 2) <> k)%nat -> GetNewPeer c now r1 r2 ps = (None, ps).
Proof.
  intros T K. exists (crowd k now). assert (L : length (crowd k now) = S k) by (unfold crowd; rewrite app_length, banned_length; cbn; lia).
  split; [exact L|]. split.
  - eexists. split; [unfold crowd; apply in_or_app; right; left; reflexivity|]. repeat split; cbn; lia.
  - intros r1 r2 c H1 H2. assert (X : forall c r, (r mod (k + 2) <> k)%nat -> GetPeersWithCapability c 1 true now r (crowd k now) = ([], crowd k now)).
    { intros c' r H. unfold GetPeersWithCapability. rewrite L. replace (S (S k)) with (k + 2)%nat by lia.
      pose proof (Nat.mod_upper_bound r (k + 2) ltac:(lia)) as U. set (pos := (r mod (k + 2))%nat) in *.
      assert (P : ((if Nat.eqb pos (length (crowd k now)) then 0 else pos) < k)%nat). { rewrite L. destruct (Nat.eqb_spec pos (S k)); lia. }
      destruct (banned_nth k now _ P) as (p & N & B). apply (search_stuck _ _ _ _ p); [unfold crowd; unfold crowd in N; apply nth_app, N|].
      unfold IsBanned, BAN_WINDOW. rewrite B. apply Z.ltb_lt. lia. }
    unfold GetNewPeer. rewrite !X by assumption. reflexivity.
Qed.

(** Peers sent to others are known; they have what was asked for, or else nobody known has it; and there are at most 256 of them. *)
Theorem C61_recommended c now r1 r2 ps a : In a (GetPeers c 256 now r1 r2 ps) ->
  (length (GetPeers c 256 now r1 r2 ps) <= 256)%nat /\
  exists p, In p ps /\ p_addr p = a /\ (HasCapability (p_capabilities p) c = true \/ forall q, In q ps -> HasCapability (p_capabilities q) c = false).
Proof.
  unfold GetPeers. destruct (GetPeersWithCapability c 256 false now r1 ps) as [l1 q1] eqn:E1. pose proof E1 as F1. unfold GetPeersWithCapability in E1.
  destruct (search_recommend _ _ _ _ _ _ _ _ _ E1 ltac:(cbn; lia)) as (_ & L1 & X1). cbn [fst]. destruct l1 as [|b l1].
  - unfold GetPeersWithCapability. destruct (search _ UNKNOWN 256 false now _ [] ps) as [l2 q2] eqn:E2.
    destruct (search_recommend _ _ _ _ _ _ _ _ _ E2 ltac:(cbn; lia)) as (_ & L2 & X2). cbn [fst]. intros I. split; [exact L2|].
    destruct (X2 a I) as [[]|(p & J & A & _)]. exists p. split; [exact J|]. split; [exact A|]. right. intros q Q.
    apply (get_nobody c 256 now r1 ps q); [rewrite F1; reflexivity | exact Q].
  - intros I. split; [exact L1|]. destruct (X1 a I) as [[]|(p & J & A & H)]. exists p. auto.
Qed.

Section Histories.
Variables (allowed blocked preferred : list N) (maxPeers : N).
Notation step := (step allowed blocked preferred maxPeers).
Notation run := (run allowed blocked preferred maxPeers).
Notation start := (start preferred).

(** Whatever happens: only addresses that are not blocked, and are allowed if there is a list of allowed ones, are accepted or connected to;
    only preferred ones are connected to if there is a list of them. *)
Theorem C61_lists h n now a :
  (In (now, Accepted a) (snd (run h n)) \/ In (now, Attempted a) (snd (run h n)) -> ~ In a blocked /\ (allowed <> [] -> In a allowed)) /\
  (In (now, Attempted a) (snd (run h n)) -> preferred <> [] -> In a preferred).
Proof.
  assert (LS : forall l, existsb (N.eqb a) l = true <-> In a l).
  { intros l. rewrite existsb_exists. split; [intros (x & I & E); apply N.eqb_eq in E; congruence | intros I; exists a; split; [exact I | apply N.eqb_refl]]. }
  assert (BL : IsPeerBlocked blocked a = false -> ~ In a blocked). { intros H I. apply LS in I. unfold IsPeerBlocked, listed in H. congruence. }
  assert (AL : IsPeerAllowed allowed a = true -> allowed <> [] -> In a allowed). { unfold IsPeerAllowed, listed. destruct allowed; [congruence|]. intros H _. apply LS, H. }
  assert (PR : IsPeerPreferred preferred a = true -> preferred <> [] -> In a preferred). { unfold IsPeerPreferred, listed. destruct preferred; [congruence|]. intros H _. apply LS, H. }
  revert n. induction h as [|[t o] h IH]; intros n; [split; [intros [[]|[]] | intros []]|].
  rewrite (run_cons allowed blocked preferred maxPeers). cbn [snd]. destruct (IH (fst (step t o n))) as [IH1 IH2]. split.
  - intros [I|I]; apply in_app_or in I; destruct I as [I|I]; auto; apply in_map_iff in I; destruct I as (x & E & I); injection E as _ ->.
    + apply accepted_why in I. destruct I as (_ & _ & _ & _ & B & A & _). auto.
    + apply attempted_why in I. destruct I as (_ & _ & B & A & _). auto.
  - intros I; apply in_app_or in I; destruct I as [I|I]; auto. apply in_map_iff in I; destruct I as (x & E & I); injection E as _ ->.
    apply attempted_why in I. destruct I as (_ & _ & _ & _ & P). auto.
Qed.

(** Once unbanned by the user, a peer is accepted again at once (any time from three hours after 1970), as long as the node listens and has room, whatever happened before. *)
Theorem C61_unban n a t now : n_listening n = true -> n_asio n = true -> num_connections n < maxPeers -> ~ In a blocked -> allowed = [] \/ In a allowed -> (10800 <= now)%Z ->
  snd (run [(t, ApiUnban a); (now, Arrives a)] n) = [(now, Accepted a)].
Proof.
  intros L A M B W T. assert (LS : forall l, existsb (N.eqb a) l = true <-> In a l).
  { intros l. rewrite existsb_exists. split; [intros (x & I & E); apply N.eqb_eq in E; congruence | intros I; exists a; split; [exact I | apply N.eqb_refl]]. }
  rewrite !(run_cons allowed blocked preferred maxPeers). cbn [PeerModel.step fst snd map app PeerModel.run]. unfold Accept.
  cbn [n_listening n_asio set_peers]. rewrite L, A. cbn [negb orb]. change (num_connections (set_peers _ n)) with (num_connections n).
  apply N.ltb_lt in M. rewrite M. cbn [negb]. assert (B' : IsPeerBlocked blocked a = false).
  { unfold IsPeerBlocked, listed. destruct (existsb (N.eqb a) blocked) eqn:E; [apply LS in E; contradiction|reflexivity]. }
  rewrite B'. assert (W' : IsPeerAllowed allowed a = true).
  { unfold IsPeerAllowed, listed. destruct W as [->|W]; [reflexivity|]. destruct allowed; [reflexivity|]. apply LS, W. }
  rewrite W'. cbn [negb]. match goal with |- context [banned_addr ?x ?y ?z] => assert (Q : banned_addr x y z = false) end; [|rewrite Q; reflexivity].
  unfold banned_addr. cbn [n_peers set_peers]. unfold GetPeer.
  assert (U : forall ps, match find_peer a (UnbanPeer a ps) with Some p => p_lastBan p = 0%Z | None => True end).
  { induction ps as [|p ps IH]; [exact I|]. unfold UnbanPeer, modify, find_peer in *. cbn [map find]. destruct (p_addr p =? a) eqn:E; cbn [Unban p_addr]; rewrite E; [reflexivity|exact IH]. }
  assert (V : forall ps, find_peer a ps = None -> match find_peer a (emplace (new_peer a) ps) with Some p => p_lastBan p = 0%Z | None => True end).
  { induction ps as [|p ps IH]; unfold find_peer in *; cbn [emplace find new_peer p_addr]; [rewrite N.eqb_refl; reflexivity|].
    destruct (p_addr p =? a) eqn:E; [discriminate|]. intros F. destruct (a <? p_addr p); cbn [find new_peer p_addr]; [rewrite N.eqb_refl; reflexivity|].
    rewrite N.eqb_sym, E. cbn [find]. rewrite E. apply IH, F. }
  specialize (U (n_peers n)). specialize (V (UnbanPeer a (n_peers n))). destruct (find_peer a (UnbanPeer a (n_peers n))) as [p|] eqn:F.
  - rewrite F. unfold IsBanned, BAN_WINDOW. rewrite U. apply Z.ltb_ge. lia.
  - specialize (V eq_refl). destruct (find_peer a (emplace _ _)) as [p|]; [|reflexivity]. unfold IsBanned, BAN_WINDOW. rewrite V. apply Z.ltb_ge. lia.
Qed.

(** For three hours after a ban by the user, whatever happens, the peer is neither accepted nor connected to, unless it is unbanned or the
    node restarts; if the node had not spoken to it, or during the last 6 days and 21 hours. *)
Theorem C61_ban_partial h0 h a t : spoken_recently a t (fst (run h0 start)) -> within_ban a t h ->
  forall now x, In (now, x) (snd (run h (fst (run (h0 ++ [(t, ApiBan a)]) start)))) -> x <> Accepted a /\ x <> Attempted a.
Proof.
  intros S W now x. assert (E : fst (run (h0 ++ [(t, ApiBan a)]) start) = set_peers (BanPeer t a (n_peers (fst (run h0 start)))) (fst (run h0 start))).
  { clear S. generalize start. induction h0 as [|[t1 o1] h0 IH]; intros n0; [reflexivity|]. cbn [app]. rewrite !(run_cons allowed blocked preferred maxPeers). cbn [fst]. apply IH. }
  rewrite E. apply (ban_lasts allowed blocked preferred maxPeers a t h); [exact W | |].
  - cbn [n_peers set_peers]. eapply (change_distinct t 0); [apply ch_banpeer|]. apply run_distinct, start_distinct.
  - cbn [n_peers set_peers]. apply api_ban_kept, S.
Qed.
(** The same after a ban for bad data. *)
Theorem C61_bad_data_ban_partial h n i k t : distinct (n_peers n) -> (exists p, In p (n_peers n) /\ p_addr p = k_addr k) -> nth_error (n_links n) i = Some k ->
  n_asio n = true -> k_up k = true -> k_open k = true -> within_ban (k_addr k) t h ->
  forall now x, In (now, x) (snd (run h (fst (step t (Message i BadData) n)))) -> x <> Accepted (k_addr k) /\ x <> Attempted (k_addr k).
Proof.
  intros D (p & I & A) N AS U O' W now x. apply (ban_lasts allowed blocked preferred maxPeers (k_addr k) t h); [exact W | |].
  - apply step_distinct, D.
  - cbn [PeerModel.step]. unfold HandleReceived. rewrite N, AS, U, O'. cbn [negb orb fst n_peers set_peers set_link set_links k_addr].
    pose proof (in_modify (k_addr k) (UpdateLastContactTime t) p _ I) as I1. rewrite A, N.eqb_refl in I1.
    pose proof (in_modify (k_addr k) (Ban t) _ _ I1) as I2. cbn [UpdateLastContactTime p_addr] in I2. rewrite A, N.eqb_refl in I2.
    eexists. split; [exact I2|]. cbn. repeat split; [exact A | lia | right; lia].
Qed.

(** A ban by the user ends an established connection, once the connections are looked through: it is closed and stays so, and nothing that
    arrives on it is acted on. *)
Theorem C61_ban_closes_partial h n i k t now : nth_error (n_links n) i = Some k -> k_managed k = true -> k_terminate k = false -> k_locked k = false -> n_seed n = true ->
  distinct (n_peers n) -> (t <= now < t + 10800)%Z -> no_restart h ->
  forall later r, snd (step later (Message i r) (fst (run h (fst (run [(t, ApiBan (k_addr k)); (now, Examine i)] n))))) = [].
Proof.
  intros N M T LK SD D TM NR later r. rewrite shut_silent; [reflexivity|]. apply shut_run; [exact NR|].
  rewrite !(run_cons allowed blocked preferred maxPeers). cbn [fst PeerModel.run PeerModel.step]. set (n1 := set_peers (BanPeer t (k_addr k) (n_peers n)) n).
  assert (B : banned_addr now (k_addr k) n1 = true).
  { assert (D1 : distinct (n_peers n1)) by (eapply (change_distinct t 0); [apply (ch_banpeer t 0 (k_addr k)) | exact D]).
    assert (X : exists p, In p (n_peers n1) /\ p_addr p = k_addr k /\ p_lastBan p = t).
    { unfold n1. cbn [n_peers set_peers]. unfold BanPeer. destruct (find_peer (k_addr k) (n_peers n)) as [p|] eqn:E.
      - apply find_in in E. destruct E as [I A]. exists (Ban t p). pose proof (in_modify (k_addr k) (Ban t) p _ I) as X. rewrite A, N.eqb_refl in X. auto.
      - exists (SetAttempt t (Ban t (new_peer (k_addr k)))). split; [|auto]. apply emplace_new. intros q Q. exact (PeerProofs.find_none _ _ q E Q). }
    destruct X as (p & I & A & Q). unfold banned_addr. rewrite <- A, (find_of _ p D1 I). unfold IsBanned, BAN_WINDOW. apply Z.ltb_lt. lia. }
  unfold Prune. change (n_links n1) with (n_links n). rewrite N. change (n_seed n1) with (n_seed n). rewrite SD, M. unfold active. rewrite B. cbn [negb andb orb].
  rewrite !andb_false_r. cbn [andb]. rewrite LK. unfold Disconnect. rewrite T.
  cbn [n_links set_link set_links set_peers]. change (n_links n1) with (n_links n). rewrite (nth_set_same _ _ k) by exact N.
  eexists. cbn [n_links set_link set_links set_peers]. split; [apply (nth_set_same i _ (mkLink (k_addr k) (k_outbound k) (k_up k) (k_managed k) false true (k_locked k) (k_received k))); apply (nth_set_same _ _ k); exact N|]. auto.
Qed.

(** False: a ban for bad data ends the connection. Whatever happens later, as long as the connection itself does not fail, what the banned
    peer sends is acted on. *)
Theorem C61_bad_data_refuted h n i k t : nth_error (n_links n) i = Some k -> n_asio n = true -> k_up k = true -> k_open k = true ->
  Forall (fun '(_, o) => no_failure i o) h ->
  forall now, snd (step now (Message i Fine) (fst (run ((t, Message i BadData) :: h) n))) = [Processed (k_addr k)].
Proof.
  intros N A U O' F now. rewrite (run_cons allowed blocked preferred maxPeers). cbn [fst].
  assert (S : survivor i (k_addr k) (fst (step t (Message i BadData) n))).
  { cbn [PeerModel.step]. unfold HandleReceived. rewrite N, A, U, O'. cbn [negb orb fst k_addr k_outbound k_up k_managed k_open k_terminate k_locked].
    split; [exact A|]. eexists. cbn [n_links set_link set_links set_peers]. split; [eapply nth_set_same, nth_set_same, N|]. auto. }
  destruct (survivor_run allowed blocked preferred maxPeers h i (k_addr k) _ F S) as (A' & k' & N' & K1 & K2 & K3 & K4).
  remember (fst (run h (fst (step t (Message i BadData) n)))) as m eqn:M. clear M.
  cbn [PeerModel.step]. unfold HandleReceived. rewrite N', A', K2, K3. cbn [negb orb snd k_addr]. congruence.
Qed.

(** False: a node goes on accepting connections. A single connection from a blocked address, or from one that is not on the list of allowed
    ones, is the last one that it takes. *)
Theorem C61_listener_refuted h n t b : In b blocked \/ (allowed <> [] /\ ~ In b allowed) -> num_connections n < maxPeers -> n_asio n = true -> no_restart h ->
  forall now a, ~ In (now, Accepted a) (snd (run ((t, Arrives b) :: h) n)).
Proof.
  intros B C AS NR now a I.
  assert (LS : forall l, existsb (N.eqb b) l = true <-> In b l).
  { intros l. rewrite existsb_exists. split; [intros (x & J & E); apply N.eqb_eq in E; congruence | intros J; exists b; split; [exact J | apply N.eqb_refl]]. }
  assert (R : IsPeerBlocked blocked b = true \/ IsPeerAllowed allowed b = false).
  { destruct B as [B|[B1 B2]]; [left; apply LS, B | right]. unfold IsPeerAllowed. destruct allowed as [|x l] eqn:E; [congruence|]. rewrite <- E in *.
    destruct (listed b allowed) eqn:Q; [|reflexivity]. exfalso. apply B2, LS, Q. }
  rewrite (run_cons allowed blocked preferred maxPeers) in I. cbn [snd] in I. apply in_app_or in I. destruct I as [I|I].
  - apply in_map_iff in I. destruct I as (x & E & I). injection E as _ ->. apply accepted_why in I. destruct I as (E & _ & _ & _ & X1 & X2 & _).
    injection E as <-. destruct R; congruence.
  - revert I. apply run_deaf; [exact NR|]. cbn [PeerModel.step]. unfold Accept. rewrite AS. cbn [negb]. rewrite orb_false_r.
    destruct (n_listening n) eqn:L; cbn [negb]; [|exact L]. replace (num_connections n <? maxPeers) with true by (symmetry; apply N.ltb_lt, C). cbn [negb].
    destruct R as [R|R]; [rewrite R; reflexivity|]. destruct (IsPeerBlocked blocked b); [reflexivity|]. rewrite R. reflexivity.
Qed.
(** True without such lists, as long as accepting never fails. *)
Theorem C61_listener_partial h : blocked = [] -> allowed = [] -> Forall (fun '(_, o) => o <> AcceptFails) h -> n_listening (fst (run h start)) = true.
Proof.
  intros B A F. assert (X : forall n, n_listening n = true -> n_listening (fst (run h n)) = true).
  { induction h as [|[t o] l IH]; intros n L; [exact L|]. pose proof (Forall_inv F) as F1. pose proof (Forall_inv_tail F) as F2. cbn beta iota in F1. rewrite (run_cons allowed blocked preferred maxPeers). cbn [fst].
    apply IH; [exact F2|]. apply listening_on; assumption. }
  apply X. reflexivity.
Qed.

(** False: a malformed message only ends its connection. After one, nothing that any peer sends is acted on, and nobody is accepted, until
    the node restarts. *)
Theorem C61_malformed_refuted h n i k t : nth_error (n_links n) i = Some k -> n_asio n = true -> k_up k = true -> k_open k = true -> no_restart h ->
  forall now a, ~ In (now, Accepted a) (snd (run ((t, Message i BadBody) :: h) n)) /\ ~ In (now, Processed a) (snd (run ((t, Message i BadBody) :: h) n)).
Proof.
  intros N A U O' NR now a. rewrite (run_cons allowed blocked preferred maxPeers). cbn [snd].
  assert (X : step t (Message i BadBody) n = (fst (step t (Message i BadBody) n), []) /\ n_asio (fst (step t (Message i BadBody) n)) = false).
  { cbn [PeerModel.step]. unfold HandleReceived. rewrite N, A, U, O'. cbn [negb orb fst]. split; reflexivity. }
  destruct X as [X1 X2]. rewrite X1. cbn [snd fst map app]. apply run_frozen; assumption.
Qed.
End Histories.

(** False: a ban lasts three hours. It does not outlive a restart; and a ban of a peer that was last spoken to more than a week ago is
    forgotten by the second of the clean-ups, which come every 15 seconds. *)
Definition T0 : Z := 1700000000.
Theorem C61_ban_forgotten_refuted :
  In ((T0 + 1)%Z, Accepted 7) (snd (run [] [] [] 100 [(T0, ApiBan 7); (T0, Restart); ((T0 + 1)%Z, Arrives 7)] (start []))) /\
  exists h0 t, In ((t + 31)%Z, Accepted 7) (snd (run [] [] [] 100 (h0 ++ [(t, ApiBan 7); ((t + 15)%Z, Manage); ((t + 30)%Z, Manage); ((t + 31)%Z, Arrives 7)]) (start []))).
Proof.
  split; [vm_compute; auto|].
  exists [(T0, Arrives 7); (T0, HandshakeDone 0 true 6); (T0, ReadFails 0); ((T0 + 90)%Z, Examine 0); ((T0 + 100)%Z, Manage)], (T0 + 700000)%Z.
  vm_compute. auto.
Qed.

(** False: only peers in good standing are recommended. *)
Theorem C61_recommended_refuted : In (T0, Recommended [7]) (snd (run [] [] [] 100 [(T0, ApiBan 7); (T0, AskedForPeers 0 0 0)] (start []))).
Proof. vm_compute. auto. Qed.

(** False: no second connection is made to a connected peer, and there are at most so many connections as configured. *)
Theorem C61_connected_refuted : exists h, connections_to 7 (fst (run [] [] [] 100 h (start []))) = 2%nat /\
  existsb (fun '(_, x) => match x with Attempted 7 => true | _ => false end) (snd (run [] [] [] 100 h (start []))) = true /\
  forall t o, In (t, o) h -> t = T0.
Proof.
  exists [(T0, Arrives 7); (T0, HandshakeDone 0 true 6); (T0, Arrives 7); (T0, HandshakeDone 1 true 6); (T0, SeedNew 0 0 []); (T0, HandshakeDone 2 true 6)].
  split; [vm_compute; reflexivity|]. split; [vm_compute; reflexivity|]. intros t o H. cbn in H. repeat (destruct H as [H|H]; [congruence|]). destruct H.
Qed.
Theorem C61_limit_refuted : exists h, num_connections (fst (run [] [] [] 1 h (start []))) = 2.
Proof. exists [(T0, Arrives 7); (T0, Arrives 8); (T0, HandshakeDone 0 true 6); (T0, HandshakeDone 1 true 6)]. vm_compute. reflexivity. Qed.

(** The hypotheses are met: a history in which two peers connect, one of them sends bad data, and the user bans the other. *)
Definition story : list (Z * op) :=
  [(T0, PeerAddrs [5; 9]); (T0, Arrives 7); (T0, HandshakeDone 0 true 6); ((T0 + 1)%Z, SeedNew 1 2 []); ((T0 + 2)%Z, HandshakeDone 1 true 7)].
Theorem C61_example :
  let n := fst (run [] [3] [] 100 story (start [])) in
  map k_addr (n_links n) = [7; 9] /\ forallb (fun k => k_up k && k_open k && k_managed k && negb (k_terminate k))%bool (n_links n) = true /\
  n_asio n = true /\ n_listening n = true /\ distinct (n_peers n) /\ spoken_recently 9 (T0 + 3) n /\
  within_ban 9 (T0 + 3) [((T0 + 4)%Z, Examine 1); ((T0 + 20)%Z, Manage); ((T0 + 400)%Z, Arrives 9); ((T0 + 401)%Z, SeedNew 3 3 []); ((T0 + 402)%Z, Arrives 3)] /\
  snd (run [] [3] [] 100 [((T0 + 3)%Z, ApiBan 9); ((T0 + 4)%Z, Examine 1); ((T0 + 4)%Z, Message 1 Fine); ((T0 + 20)%Z, Manage); ((T0 + 400)%Z, Arrives 9); ((T0 + 401)%Z, SeedNew 0 0 []);
    ((T0 + 402)%Z, Message 0 BadData); ((T0 + 403)%Z, Examine 0); ((T0 + 404)%Z, Message 0 Fine); ((T0 + 402)%Z, Arrives 3); ((T0 + 403)%Z, Arrives 11)] n) =
    [((T0 + 401)%Z, Attempted 5); ((T0 + 402)%Z, Processed 7); ((T0 + 404)%Z, Processed 7)].
Proof.
  cbv zeta. split; [vm_compute; reflexivity|]. split; [vm_compute; reflexivity|]. split; [vm_compute; reflexivity|]. split; [vm_compute; reflexivity|].
  split; [apply run_distinct, start_distinct|]. split.
  - intros p I _. vm_compute in I.
    repeat (destruct I as [<-|I]; [first [left; vm_compute; discriminate | right; vm_compute; discriminate]|]). destruct I.
  - split; [|vm_compute; reflexivity]. repeat constructor; try discriminate.
Qed.

Definition peer_theorems := (C61_choice, C61_found_partial, C61_found_refuted, C61_recommended, C61_lists, C61_unban, C61_ban_partial, C61_bad_data_ban_partial, C61_ban_closes_partial,
  C61_bad_data_refuted, C61_listener_refuted, C61_listener_partial, C61_malformed_refuted, C61_ban_forgotten_refuted, C61_recommended_refuted, C61_connected_refuted,
  C61_limit_refuted, C61_example).
Print Assumptions peer_theorems.
