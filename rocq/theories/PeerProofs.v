From Verif Require Import Base PeerModel PeerSpec.
Local Open Scope N_scope.

(** * Lists of peers *)
Lemma addr_modify a f ps : (forall p, p_addr (f p) = p_addr p) -> map p_addr (modify a f ps) = map p_addr ps.
Proof.
  intros F. unfold modify. rewrite map_map. apply map_ext. intros p. destruct (p_addr p =? a); [apply F | reflexivity].
Qed.
Lemma in_modify a f p ps : In p ps -> In (if p_addr p =? a then f p else p) (modify a f ps).
Proof. intros H. unfold modify. exact (in_map (fun p => if p_addr p =? a then f p else p) ps p H). Qed.
Lemma find_in a ps p : find_peer a ps = Some p -> In p ps /\ p_addr p = a.
Proof. intros H. apply find_some in H. destruct H as [H1 H2]. apply N.eqb_eq in H2. auto. Qed.
Lemma find_none a ps p : find_peer a ps = None -> In p ps -> p_addr p <> a.
Proof. intros H I E. pose proof (find_none _ _ H p I) as X. cbn in X. apply N.eqb_neq in X. auto. Qed.
Lemma distinct_same ps p q : distinct ps -> In p ps -> In q ps -> p_addr p = p_addr q -> p = q.
Proof.
  induction ps as [|r ps IH]; intros D P Q E; [destruct P|]. inversion D as [|? ? H1 H2]; subst.
  destruct P as [<-|P], Q as [<-|Q]; auto.
  - exfalso. apply H1. rewrite E. apply in_map, Q.
  - exfalso. apply H1. rewrite <- E. apply in_map, P.
Qed.
Lemma find_of ps p : distinct ps -> In p ps -> find_peer (p_addr p) ps = Some p.
Proof.
  intros D I. destruct (find_peer (p_addr p) ps) as [q|] eqn:E.
  - apply find_in in E. destruct E as [E1 E2]. f_equal. apply (distinct_same ps); auto.
  - exfalso. exact (find_none _ _ p E I eq_refl).
Qed.
Lemma in_emplace p q ps : In q ps -> In q (emplace p ps).
Proof.
  induction ps as [|r ps IH]; intros H; [destruct H|]. cbn [emplace].
  destruct (p_addr p <? p_addr r); [right; exact H|]. destruct (p_addr p =? p_addr r); [exact H|].
  destruct H as [H|H]; [left; exact H | right; apply IH, H].
Qed.
Lemma emplace_in p q ps : In q (emplace p ps) -> q = p \/ In q ps.
Proof.
  induction ps as [|r ps IH]; cbn [emplace].
  - intros [H|[]]. left. auto.
  - destruct (p_addr p <? p_addr r); [intros [H|H]; auto|]. destruct (p_addr p =? p_addr r); [auto|].
    intros [H|H]; [right; left; exact H|]. destruct (IH H); [auto | right; right; auto].
Qed.
Lemma emplace_new p ps : (forall q, In q ps -> p_addr q <> p_addr p) -> In p (emplace p ps).
Proof.
  induction ps as [|r ps IH]; intros H; cbn [emplace]; [left; reflexivity|].
  destruct (p_addr p <? p_addr r); [left; reflexivity|]. destruct (N.eqb_spec (p_addr p) (p_addr r)) as [E|E].
  - exfalso. apply (H r); [left; reflexivity | auto].
  - right. apply IH. intros q Q. apply H. right. exact Q.
Qed.
Lemma emplace_distinct p ps : distinct ps -> (forall q, In q ps -> p_addr q <> p_addr p) -> distinct (emplace p ps).
Proof.
  unfold distinct. induction ps as [|r ps IH]; intros D H; cbn [emplace map].
  - constructor; [intros [] | constructor].
  - destruct (p_addr p <? p_addr r).
    + cbn [map]. constructor; [|exact D]. intros X. change (In (p_addr p) (map p_addr (r :: ps))) in X. apply in_map_iff in X. destruct X as (q & E & Q). exact (H q Q E).
    + destruct (p_addr p =? p_addr r); [exact D|]. cbn [map]. inversion D as [|? ? H1 H2]; subst. constructor.
      * intros X. apply in_map_iff in X. destruct X as (q & E & Q). apply emplace_in in Q. destruct Q as [->|Q].
        -- apply (H r); [left; reflexivity | auto].
        -- apply H1. rewrite <- E. apply in_map, Q.
      * apply IH; [exact H2|]. intros q Q. apply H. right. exact Q.
Qed.

(** * The search *)
Lemma search_sound rounds c now : forall pos ps l ps', search rounds c 1 true now pos [] ps = (l, ps') ->
  (l = [] /\ ps' = ps) \/
  (exists p, In p ps /\ l = [p_addr p] /\ ready now p /\ HasCapability (p_capabilities p) c = true /\ ps' = modify (p_addr p) (SetAttempt now) ps).
Proof.
  induction rounds as [|rounds IH]; intros pos ps l ps' E.
  - cbn [search] in E. injection E as <- <-. left. auto.
  - cbn [search] in E. destruct (nth_error ps _) as [p|] eqn:N; [|injection E as <- <-; left; auto].
    cbn [andb negb] in E. destruct (IsBanned now p) eqn:B; [apply (IH _ _ _ _ E)|].
    destruct (HasCapability (p_capabilities p) c) eqn:H; [|apply (IH _ _ _ _ E)].
    destruct (negb (p_connected p) && (RETRY_WINDOW <? now - p_lastAttempt p)%Z)%bool eqn:R.
    + cbn in E. injection E as <- <-. right. exists p. apply nth_error_In in N. apply andb_true_iff in R. destruct R as [R1 R2].
      apply negb_true_iff in R1. apply Z.ltb_lt in R2. unfold IsBanned in B. apply Z.ltb_ge in B. unfold BAN_WINDOW, RETRY_WINDOW in *.
      repeat split; auto; lia.
    + cbn in E. apply (IH _ _ _ _ E).
Qed.

Lemma search_complete rounds c now : forall pos ps ps', search rounds c 1 true now pos [] ps = ([], ps') -> (pos <= length ps)%nat -> (0 < length ps)%nat ->
  Forall (fun p => IsBanned now p = false) ps ->
  forall j p, (j < rounds)%nat -> nth_error ps ((pos + j) mod length ps) = Some p -> HasCapability (p_capabilities p) c = true -> ready now p -> False.
Proof.
  induction rounds as [|rounds IH]; intros pos ps ps' E L NE NB j p J N H R; [lia|].
  cbn [search] in E. set (pos1 := if Nat.eqb pos (length ps) then O else pos) in *.
  assert (P1 : (pos1 < length ps)%nat). { unfold pos1. destruct (Nat.eqb_spec pos (length ps)); lia. }
  assert (PM : ((pos + j) mod length ps = (pos1 + j) mod length ps)%nat).
  { unfold pos1. destruct (Nat.eqb_spec pos (length ps)) as [->|]; [|reflexivity].
    replace (length ps + j)%nat with (j + 1 * length ps)%nat by lia. rewrite Nat.mod_add by lia. reflexivity. }
  rewrite PM in N. destruct (nth_error ps pos1) as [q|] eqn:Q.
  2:{ apply nth_error_None in Q. lia. }
  pose proof (proj1 (Forall_forall _ _) NB q (nth_error_In _ _ Q)) as B. cbn in B. rewrite B in E. cbn [andb negb] in E.
  assert (NEXT : HasCapability (p_capabilities q) c = true -> ready now q -> False).
  { intros H1 (_ & R1 & R2). rewrite H1, R1 in E. cbn [negb andb] in E.
    replace (RETRY_WINDOW <? now - p_lastAttempt q)%Z with true in E by (symmetry; apply Z.ltb_lt; unfold RETRY_WINDOW; lia).
    cbn in E. discriminate E. }
  assert (E' : search rounds c 1 true now (S pos1) [] ps = ([], ps')).
  { destruct (HasCapability (p_capabilities q) c) eqn:H1; [|exact E].
    destruct (negb (p_connected q) && (RETRY_WINDOW <? now - p_lastAttempt q)%Z)%bool eqn:R1; [cbn in E; discriminate E | exact E]. }
  destruct j as [|j].
  - rewrite Nat.add_0_r, Nat.mod_small in N by lia. rewrite Q in N. injection N as <-. auto.
  - apply (IH (S pos1) ps ps' E' ltac:(lia) NE NB j p); [lia | | exact H | exact R]. rewrite <- N. f_equal. f_equal. lia.
Qed.
Lemma get_complete c now r ps ps' p : GetPeersWithCapability c 1 true now r ps = ([], ps') -> Forall (fun p => IsBanned now p = false) ps ->
  In p ps -> HasCapability (p_capabilities p) c = true -> ready now p -> False.
Proof.
  intros E NB I H R. apply In_nth_error in I. destruct I as [i N].
  assert (L : (i < length ps)%nat) by (apply nth_error_Some; congruence).
  unfold GetPeersWithCapability in E. set (pos := (r mod S (length ps))%nat) in *.
  assert (P : (pos <= length ps)%nat). { unfold pos. pose proof (Nat.mod_upper_bound r (S (length ps)) ltac:(lia)). lia. }
  apply (search_complete _ _ _ _ _ _ E P ltac:(lia) NB ((i + 2 * length ps - pos) mod length ps) p); [apply Nat.mod_upper_bound; lia | | exact H | exact R].
  rewrite <- N. f_equal. rewrite Nat.add_mod_idemp_r by lia. replace (pos + (i + 2 * length ps - pos))%nat with (i + 2 * length ps)%nat by lia.
  rewrite Nat.mod_add by lia. apply Nat.mod_small, L.
Qed.

Lemma unknown_all v : HasCapability v UNKNOWN = true.
Proof. unfold HasCapability, UNKNOWN. rewrite N.land_0_r. reflexivity. Qed.

(** A banned peer at the front of the search ends it. *)
Lemma search_stuck rounds c now ps p : forall pos, nth_error ps (if Nat.eqb pos (length ps) then O else pos) = Some p -> IsBanned now p = true ->
  search rounds c 1 true now pos [] ps = ([], ps).
Proof.
  induction rounds as [|rounds IH]; intros pos N B; [reflexivity|]. cbn [search]. rewrite N, B. cbn [andb].
  apply IH; [|exact B]. destruct (Nat.eqb_spec (if Nat.eqb pos (length ps) then 0%nat else pos) (length ps)) as [X|X]; [|exact N].
  exfalso. rewrite X in N. assert (length ps < length ps)%nat by (apply nth_error_Some; congruence). lia.
Qed.

(** Looking for peers to recommend. *)
Lemma search_recommend rounds c m now : forall pos found ps l ps', search rounds c m false now pos found ps = (l, ps') -> (length found < m)%nat ->
  ps' = ps /\ (length l <= m)%nat /\ (forall a, In a l -> In a found \/ exists p, In p ps /\ p_addr p = a /\ HasCapability (p_capabilities p) c = true).
Proof.
  induction rounds as [|rounds IH]; intros pos found ps l ps' E L.
  - cbn [search] in E. injection E as <- <-. repeat split; [lia | auto].
  - cbn [search] in E. destruct (nth_error ps _) as [p|] eqn:N; [|injection E as <- <-; repeat split; [lia | auto]].
    cbn [andb negb] in E. destruct (HasCapability (p_capabilities p) c) eqn:H; [|apply (IH _ _ _ _ _ E L)].
    destruct (Nat.eqb_spec (length (found ++ [p_addr p])) m) as [Q|Q].
    + injection E as <- <-. split; [reflexivity|]. split; [lia|]. intros a A. apply in_app_or in A. destruct A as [A|[<-|[]]]; [auto|].
      right. exists p. apply nth_error_In in N. auto.
    + destruct (IH _ _ _ _ _ E) as (X1 & X2 & X3); [rewrite app_length in *; cbn [length] in *; lia|]. split; [exact X1|]. split; [exact X2|].
      intros a A. destruct (X3 a A) as [B|B]; [|auto]. apply in_app_or in B. destruct B as [B|[<-|[]]]; [auto|].
      right. exists p. apply nth_error_In in N. auto.
Qed.

Lemma search_grows rounds c m now : forall pos found ps, (length found <= length (fst (search rounds c m false now pos found ps)))%nat.
Proof.
  induction rounds as [|rounds IH]; intros pos found ps; [reflexivity|]. cbn [search]. destruct (nth_error ps _) as [p|]; [|reflexivity]. cbn [andb negb].
  destruct (HasCapability (p_capabilities p) c); [|apply IH].
  destruct (Nat.eqb _ m); [cbn [fst]; rewrite app_length; lia|]. etransitivity; [|apply IH]. rewrite app_length. lia.
Qed.
Lemma search_nobody rounds c m now : forall pos ps, fst (search rounds c m false now pos [] ps) = [] -> (pos <= length ps)%nat -> (0 < length ps)%nat ->
  forall j p, (j < rounds)%nat -> nth_error ps ((pos + j) mod length ps) = Some p -> HasCapability (p_capabilities p) c = false.
Proof.
  induction rounds as [|rounds IH]; intros pos ps E L NE j p J N; [lia|].
  cbn [search] in E. set (pos1 := if Nat.eqb pos (length ps) then O else pos) in *.
  assert (P1 : (pos1 < length ps)%nat). { unfold pos1. destruct (Nat.eqb_spec pos (length ps)); lia. }
  assert (PM : ((pos + j) mod length ps = (pos1 + j) mod length ps)%nat).
  { unfold pos1. destruct (Nat.eqb_spec pos (length ps)) as [->|]; [|reflexivity].
    replace (length ps + j)%nat with (j + 1 * length ps)%nat by lia. rewrite Nat.mod_add by lia. reflexivity. }
  rewrite PM in N. destruct (nth_error ps pos1) as [q|] eqn:Q.
  2:{ apply nth_error_None in Q. lia. }
  cbn [andb negb] in E. destruct (HasCapability (p_capabilities q) c) eqn:H.
  - exfalso. revert E. cbn [app]. destruct (Nat.eqb _ m); [discriminate|]. intros E.
    pose proof (search_grows rounds c m now (S pos1) [p_addr q] ps) as X. rewrite E in X. cbn in X. lia.
  - destruct j as [|j].
    + rewrite Nat.add_0_r, Nat.mod_small in N by lia. rewrite Q in N. injection N as <-. exact H.
    + apply (IH (S pos1) ps E ltac:(lia) NE j p); [lia|]. rewrite <- N. f_equal. f_equal. lia.
Qed.
Lemma get_nobody c m now r ps p : fst (GetPeersWithCapability c m false now r ps) = [] -> In p ps -> HasCapability (p_capabilities p) c = false.
Proof.
  intros E I. apply In_nth_error in I. destruct I as [i N].
  assert (L : (i < length ps)%nat) by (apply nth_error_Some; congruence).
  unfold GetPeersWithCapability in E. set (pos := (r mod S (length ps))%nat) in *.
  assert (P : (pos <= length ps)%nat). { unfold pos. pose proof (Nat.mod_upper_bound r (S (length ps)) ltac:(lia)). lia. }
  apply (search_nobody _ _ _ _ _ _ E P ltac:(lia) ((i + 2 * length ps - pos) mod length ps) p); [apply Nat.mod_upper_bound; lia|].
  rewrite <- N. f_equal. rewrite Nat.add_mod_idemp_r by lia. replace (pos + (i + 2 * length ps - pos))%nat with (i + 2 * length ps)%nat by lia.
  rewrite Nat.mod_add by lia. apply Nat.mod_small, L.
Qed.

(** * What an event does to the peers *)
Inductive change (now : Z) (a : N) : list peer -> list peer -> Prop :=
| ch_refl ps : change now a ps ps
| ch_trans ps qs rs : change now a ps qs -> change now a qs rs -> change now a ps rs
| ch_connected b v ps : change now a ps (modify b (SetConnected v) ps)
| ch_contact b ps : change now a ps (modify b (UpdateLastContactTime now) ps)
| ch_up b c ps : change now a ps (modify b (fun p => SetConnected true (UpdateCapabilities c p)) ps)
| ch_ban b ps : change now a ps (modify b (Ban now) ps)
| ch_attempt b ps : change now a ps (modify b (SetAttempt now) ps)
| ch_get b ps : change now a ps (GetPeer b ps)
| ch_banpeer b ps : change now a ps (BanPeer now b ps)
| ch_unban b ps : b <> a -> change now a ps (UnbanPeer b ps)
| ch_manage ps : change now a ps (ManagePeers now ps).

Lemma change_fresh now a addrs : forall ps, change now a ps (AddFreshPeers addrs ps).
Proof. induction addrs as [|b l IH]; intros ps; [apply ch_refl|]. cbn [AddFreshPeers fold_left]. eapply ch_trans; [apply ch_get | apply IH]. Qed.
Lemma change_new now a c r1 r2 ps x ps' : GetNewPeer c now r1 r2 ps = (x, ps') -> change now a ps ps'.
Proof.
  unfold GetNewPeer, GetPeersWithCapability. destruct (search _ c 1 true now _ [] ps) as [l1 q1] eqn:E1.
  pose proof (search_sound _ _ _ _ _ _ _ E1) as [[-> ->]|(p & _ & -> & _ & _ & ->)].
  - destruct (search _ UNKNOWN 1 true now _ [] ps) as [l2 q2] eqn:E2.
    pose proof (search_sound _ _ _ _ _ _ _ E2) as [[-> ->]|(p & _ & -> & _ & _ & ->)]; intros E; injection E as <- <-; [apply ch_refl | apply ch_attempt].
  - intros E; injection E as <- <-; apply ch_attempt.
Qed.

Section Node.
Variables (allowed blocked preferred : list N) (maxPeers : N).
Notation step := (step allowed blocked preferred maxPeers).
Notation run := (run allowed blocked preferred maxPeers).
Notation start := (start preferred).

Lemma disconnect_change now a i k n : change now a (n_peers n) (n_peers (Disconnect i k n)).
Proof. unfold Disconnect. destruct (k_terminate k); [apply ch_refl | apply ch_connected]. Qed.

Lemma step_change now a o n : o <> Restart -> o <> ApiUnban a -> change now a (n_peers n) (n_peers (fst (step now o n))).
Proof.
  intros NR NU. destruct o; cbn [PeerModel.step fst].
  - unfold Accept. destruct (_ || _)%bool; [apply ch_refl|]. destruct (negb _); [apply ch_refl|]. destruct (IsPeerBlocked _ _); [apply ch_refl|].
    destruct (negb _); [apply ch_refl|]. destruct (banned_addr _ _ _); apply ch_get.
  - apply ch_refl.
  - unfold SeedNewConnection. destruct (negb (n_seed n)); [apply ch_refl|]. destruct (GetNewPeer _ _ _ _ _) as [[b|] ps] eqn:E; apply (change_new now a) in E.
    + destruct (IsPeerBlocked _ _); [exact E|]. destruct (negb _); [exact E|]. destruct (negb _); exact E.
    + destruct (n_usedDNS _); [exact E|]. eapply ch_trans; [exact E | apply change_fresh].
  - unfold Thread_Connect. destruct (nth_error _ _) as [k|]; [|apply ch_refl]. destruct (_ || _)%bool; [apply ch_refl|].
    destruct (_ || _)%bool; [apply disconnect_change|]. cbv zeta. destruct (_ && _)%bool.
    + cbn [fst]. eapply ch_trans; [apply (ch_contact now a (k_addr k)) |]. exact (disconnect_change now a i k (set_peers _ n)).
    + cbn [n_seed set_peers]. destruct (negb _); cbn [fst n_peers set_peers set_link set_links]; (eapply ch_trans; [apply (ch_contact now a (k_addr k)) | apply ch_up]).
  - unfold HandleReceived. destruct (nth_error _ _) as [k|]; [|apply ch_refl]. destruct (_ || _)%bool; [apply ch_refl|]. cbv zeta.
    destruct result; cbn [fst n_peers set_peers set_link set_links set_asio Close k_addr].
    + apply ch_contact.
    + eapply ch_trans; [apply (ch_contact now a (k_addr k)) | apply ch_ban].
    + apply ch_contact.
    + eapply ch_trans; [apply (ch_contact now a (k_addr k)) | apply ch_connected].
  - unfold HandleError. destruct (nth_error _ _) as [k|]; [|apply ch_refl]. destruct (_ || _)%bool; [apply ch_refl|]. apply ch_connected.
  - unfold Prune. destruct (nth_error _ _) as [k|]; [|apply ch_refl]. destruct (_ || _)%bool; [apply ch_refl|].
    destruct (k_locked k); [apply ch_refl|]. cbv zeta. destruct (nth_error _ _); exact (disconnect_change now a i k n).
  - unfold CheckPing. destruct (nth_error _ _) as [k|]; [|apply ch_refl]. destruct (_ && _)%bool; [apply ch_ban | apply ch_refl].
  - apply ch_banpeer.
  - apply ch_unban. congruence.
  - apply change_fresh.
  - apply ch_refl.
  - apply ch_manage.
  - congruence.
Qed.

Lemma unban_addr p : p_addr (Unban p) = p_addr p. Proof. reflexivity. Qed.
Lemma get_distinct b ps : distinct ps -> distinct (GetPeer b ps).
Proof.
  intros D. unfold GetPeer. destruct (find_peer b ps) eqn:E; [exact D|]. apply emplace_distinct; [exact D|]. intros q Q. exact (find_none _ _ q E Q).
Qed.
Lemma change_distinct now a ps qs : change now a ps qs -> distinct ps -> distinct qs.
Proof.
  induction 1; intros D; auto; try (unfold distinct; rewrite addr_modify; [exact D | reflexivity]).
  - apply get_distinct, D.
  - unfold BanPeer. destruct (find_peer b ps) eqn:E.
    + unfold distinct. rewrite addr_modify; [exact D | reflexivity].
    + apply emplace_distinct; [exact D|]. intros q Q. exact (find_none _ _ q E Q).
  - unfold UnbanPeer, distinct. rewrite addr_modify; [exact D | reflexivity].
  - unfold ManagePeers, distinct. rewrite map_map. cbn [SetDirty p_addr]. unfold distinct in D. clear - D.
    induction ps as [|p ps IH]; cbn [filter map]; [constructor|]. inversion D as [|? ? H1 H2]; subst.
    destruct (_ || _)%bool; [|apply IH, H2]. cbn [map]. constructor; [|apply IH, H2].
    intros X. apply H1. apply in_map_iff in X. destruct X as (q & E & Q). apply filter_In in Q. rewrite <- E. apply in_map, Q.
Qed.
Lemma start_distinct : distinct (n_peers start).
Proof.
  cbn [n_peers PeerModel.start]. assert (X : forall l ps, distinct ps -> distinct (AddFreshPeers l ps)).
  { induction l as [|a l IH]; intros ps D; [exact D|]. cbn [AddFreshPeers fold_left]. apply IH, get_distinct, D. }
  apply X. constructor.
Qed.
Lemma step_distinct now o n : distinct (n_peers n) -> distinct (n_peers (fst (step now o n))).
Proof.
  intros D. assert (X : o = Restart \/ (exists a, o = ApiUnban a) \/ (o <> Restart /\ forall a, o <> ApiUnban a)).
  { destruct o; try (right; right; split; [|intros ?]; discriminate); [right; left; eauto | left; reflexivity]. }
  destruct X as [->|[[a ->]|[X1 X2]]].
  - apply start_distinct.
  - cbn. unfold UnbanPeer, distinct. rewrite addr_modify; [exact D | reflexivity].
  - eapply change_distinct; [apply (step_change now 0 o n X1 (X2 0)) | exact D].
Qed.
Lemma run_cons now o h n : run ((now, o) :: h) n =
  (fst (run h (fst (step now o n))), map (fun a => (now, a)) (snd (step now o n)) ++ snd (run h (fst (step now o n)))).
Proof. cbn [PeerModel.run]. destruct (step now o n) as [n1 a1]. cbn [fst snd]. destruct (run h n1) as [n2 a2]. reflexivity. Qed.
Lemma run_distinct h : forall n, distinct (n_peers n) -> distinct (n_peers (fst (run h n))).
Proof.
  induction h as [|[now o] h IH]; intros n D; [exact D|]. rewrite run_cons. cbn [fst]. apply IH, step_distinct, D.
Qed.

(** * Bans *)
Definition kept (a : N) (t : Z) (ps : list peer) : Prop :=
  exists p, In p ps /\ p_addr p = a /\ (t <= p_lastBan p)%Z /\ (p_lastContact p <= 0 \/ t - 594000 <= p_lastContact p)%Z.
Lemma kept_modify a t b f ps : kept a t ps -> (forall p, p_addr (f p) = p_addr p) -> (forall p, p_addr p = b -> p_addr p = a -> (t <= p_lastBan p)%Z -> (t <= p_lastBan (f p))%Z) ->
  (forall p, (p_lastContact p <= 0 \/ t - 594000 <= p_lastContact p)%Z -> (p_lastContact (f p) <= 0 \/ t - 594000 <= p_lastContact (f p))%Z) -> kept a t (modify b f ps).
Proof.
  intros (p & I & A & B & C) F1 F2 F3. exists (if p_addr p =? b then f p else p). split; [apply in_modify, I|].
  destruct (N.eqb_spec (p_addr p) b) as [E|E]; [rewrite F1|]; repeat split; auto.
Qed.
Lemma change_kept now a t ps qs : change now a ps qs -> (t <= now < t + 10800)%Z -> kept a t ps -> kept a t qs.
Proof.
  intros C T. induction C; intros K; auto; try (apply kept_modify; [exact K | reflexivity | cbn; intros; lia | cbn; intros; lia]).
  - unfold GetPeer. destruct (find_peer b ps); [exact K|]. destruct K as (p & I & K). exists p. split; [apply in_emplace, I | exact K].
  - unfold BanPeer. destruct (find_peer b ps).
    + apply kept_modify; [exact K | reflexivity | cbn; intros; lia | cbn; intros; lia].
    + destruct K as (q & I & K). exists q. split; [apply in_emplace, I | exact K].
  - destruct K as (p & I & A & B & C). exists (SetDirty false p). unfold ManagePeers. split.
    + apply in_map. apply filter_In. split; [exact I|]. apply orb_true_iff. right. apply negb_true_iff, andb_false_iff.
      unfold FORGET_WINDOW. destruct C as [C|C]; [left; apply Z.ltb_ge; lia | right; apply Z.ltb_ge; lia].
    + cbn. auto.
Qed.
Lemma kept_banned a t now n : kept a t (n_peers n) -> distinct (n_peers n) -> (now < t + 10800)%Z -> banned_addr now a n = true.
Proof.
  intros (p & I & A & B & _) D T. unfold banned_addr. rewrite <- A, (find_of _ p D I). unfold IsBanned, BAN_WINDOW. apply Z.ltb_lt. lia.
Qed.
Lemma kept_get a t b ps : kept a t ps -> kept a t (GetPeer b ps).
Proof. intros K. apply (change_kept t a t ps _ (ch_get t a b ps)); [lia | exact K]. Qed.

Lemma new_sound c now r1 r2 ps b ps' : GetNewPeer c now r1 r2 ps = (Some b, ps') ->
  exists p, In p ps /\ p_addr p = b /\ ready now p /\ ps' = modify b (SetAttempt now) ps.
Proof.
  unfold GetNewPeer, GetPeersWithCapability. destruct (search _ c 1 true now _ [] ps) as [l1 q1] eqn:E1.
  pose proof (search_sound _ _ _ _ _ _ _ E1) as [[-> ->]|(p & I & -> & R & _ & ->)].
  - destruct (search _ UNKNOWN 1 true now _ [] ps) as [l2 q2] eqn:E2.
    pose proof (search_sound _ _ _ _ _ _ _ E2) as [[-> ->]|(p & I & -> & R & _ & ->)]; intros E; [discriminate E|]. injection E as <- <-. eauto 6.
  - intros E. injection E as <- <-. eauto 6.
Qed.
Lemma new_none c now r1 r2 ps ps' : GetNewPeer c now r1 r2 ps = (None, ps') -> ps' = ps.
Proof.
  unfold GetNewPeer, GetPeersWithCapability. destruct (search _ c 1 true now _ [] ps) as [l1 q1] eqn:E1.
  pose proof (search_sound _ _ _ _ _ _ _ E1) as [[-> ->]|(p & I & -> & R & _ & ->)]; [|intros E; discriminate E].
  destruct (search _ UNKNOWN 1 true now _ [] ps) as [l2 q2] eqn:E2.
  pose proof (search_sound _ _ _ _ _ _ _ E2) as [[-> ->]|(p & I & -> & R & _ & ->)]; intros E; [injection E as <-; reflexivity | discriminate E].
Qed.

(** What one event does. *)
Lemma accepted_why now o n b : In (Accepted b) (snd (step now o n)) ->
  o = Arrives b /\ n_listening n = true /\ n_asio n = true /\ num_connections n < maxPeers /\ IsPeerBlocked blocked b = false /\ IsPeerAllowed allowed b = true /\
  banned_addr now b (set_peers (GetPeer b (n_peers n)) n) = false.
Proof.
  destruct o; cbn [PeerModel.step snd]; try (intros []; fail).
  - unfold Accept. destruct (_ || _)%bool eqn:E1; [intros []|]. destruct (negb (num_connections n <? maxPeers)) eqn:E2; [intros []|].
    destruct (IsPeerBlocked blocked addr) eqn:E3; [intros []|]. destruct (negb (IsPeerAllowed allowed addr)) eqn:E4; [intros []|].
    destruct (banned_addr _ _ _) eqn:E5; [intros []|]. cbn [snd]. intros [H|[]]. injection H as <-.
    apply orb_false_iff in E1. destruct E1 as [E0 E1]. apply negb_false_iff in E0, E1, E2, E4. apply N.ltb_lt in E2. repeat split; assumption.
  - unfold SeedNewConnection. destruct (negb _); [intros []|]. destruct (GetNewPeer _ _ _ _ _) as [[c|] ps].
    + destruct (IsPeerBlocked _ _); [intros []|]. destruct (negb _); [intros []|]. destruct (negb _); [intros []|]. intros [H|[]]. discriminate H.
    + destruct (n_usedDNS _); intros [].
  - unfold Thread_Connect. destruct (nth_error _ _); [|intros []]. destruct (_ || _)%bool; [intros []|]. destruct (_ || _)%bool; [intros []|]. cbv zeta.
    destruct (_ && _)%bool; [intros []|]. destruct (negb _); [intros []|]. intros [H|[]]. discriminate H.
  - unfold HandleReceived. destruct (nth_error _ _); [|intros []]. destruct (_ || _)%bool; [intros []|]. cbv zeta.
    destruct result; cbn [snd]; try (intros []; fail); intros [H|[]]; discriminate H.
  - intros [H|[]]. discriminate H.
Qed.
Lemma attempted_why now o n b : In (Attempted b) (snd (step now o n)) ->
  (exists r1 r2 dns ps, o = SeedNew r1 r2 dns /\ GetNewPeer FAST_SYNC_NODE now r1 r2 (n_peers n) = (Some b, ps)) /\ n_seed n = true /\
  IsPeerBlocked blocked b = false /\ IsPeerAllowed allowed b = true /\ IsPeerPreferred preferred b = true.
Proof.
  destruct o; cbn [PeerModel.step snd]; try (intros []; fail).
  - unfold Accept. destruct (_ || _)%bool; [intros []|]. destruct (negb _); [intros []|]. destruct (IsPeerBlocked _ _); [intros []|]. destruct (negb _); [intros []|].
    destruct (banned_addr _ _ _); [intros []|]. intros [H|[]]. discriminate H.
  - unfold SeedNewConnection. destruct (n_seed n) eqn:E0; cbn [negb]; [|intros []]. destruct (GetNewPeer _ _ _ _ _) as [[c|] ps] eqn:E.
    + destruct (IsPeerBlocked blocked c) eqn:E1; [intros []|]. destruct (IsPeerAllowed allowed c) eqn:E2; cbn [negb]; [|intros []].
      destruct (IsPeerPreferred preferred c) eqn:E3; cbn [negb]; [|intros []].
      intros [H|[]]. injection H as <-. split; [exists r1, r2, dns, ps; auto | auto].
    + destruct (n_usedDNS _); intros [].
  - unfold Thread_Connect. destruct (nth_error _ _); [|intros []]. destruct (_ || _)%bool; [intros []|]. destruct (_ || _)%bool; [intros []|]. cbv zeta.
    destruct (_ && _)%bool; [intros []|]. destruct (negb _); [intros []|]. intros [H|[]]. discriminate H.
  - unfold HandleReceived. destruct (nth_error _ _); [|intros []]. destruct (_ || _)%bool; [intros []|]. cbv zeta.
    destruct result; cbn [snd]; try (intros []; fail); intros [H|[]]; discriminate H.
  - intros [H|[]]. discriminate H.
Qed.
Lemma processed_why now o n b : In (Processed b) (snd (step now o n)) ->
  n_asio n = true /\ exists i r k, o = Message i r /\ nth_error (n_links n) i = Some k /\ k_up k = true /\ k_open k = true /\ k_addr k = b.
Proof.
  destruct o; cbn [PeerModel.step snd]; try (intros []; fail).
  - unfold Accept. destruct (_ || _)%bool; [intros []|]. destruct (negb _); [intros []|]. destruct (IsPeerBlocked _ _); [intros []|]. destruct (negb _); [intros []|].
    destruct (banned_addr _ _ _); [intros []|]. intros [H|[]]. discriminate H.
  - unfold SeedNewConnection. destruct (negb _); [intros []|]. destruct (GetNewPeer _ _ _ _ _) as [[c|] ps].
    + destruct (IsPeerBlocked _ _); [intros []|]. destruct (negb _); [intros []|]. destruct (negb _); [intros []|]. intros [H|[]]. discriminate H.
    + destruct (n_usedDNS _); intros [].
  - unfold Thread_Connect. destruct (nth_error _ _); [|intros []]. destruct (_ || _)%bool; [intros []|]. destruct (_ || _)%bool; [intros []|]. cbv zeta.
    destruct (_ && _)%bool; [intros []|]. destruct (negb _); [intros []|]. intros [H|[]]. discriminate H.
  - unfold HandleReceived. destruct (nth_error _ _) as [k|] eqn:E; [|intros []]. destruct (_ || _)%bool eqn:Q; [intros []|]. cbv zeta.
    apply orb_false_iff in Q. destruct Q as [Q Q3]. apply orb_false_iff in Q. destruct Q as [Q1 Q2]. apply negb_false_iff in Q1, Q2, Q3.
    intros X. split; [exact Q1|]. exists i, result, k. repeat split; auto. destruct result; cbn [snd k_addr] in X; try (destruct X; fail); destruct X as [H|[]]; congruence.
  - intros [H|[]]. discriminate H.
Qed.

(** While a ban lasts. *)
Lemma ban_lasts a t h : forall n, within_ban a t h -> distinct (n_peers n) -> kept a t (n_peers n) ->
  forall now x, In (now, x) (snd (run h n)) -> x <> Accepted a /\ x <> Attempted a.
Proof.
  induction h as [|[time o] h IH]; intros n W D K now x I; [destruct I|]. inversion W as [|? ? W0 W']; subst. cbn beta iota in W0. destruct W0 as (T & NR & NU).
  rewrite run_cons in I. cbn [snd] in I. apply in_app_or in I. destruct I as [I|I].
  - apply in_map_iff in I. destruct I as (x' & E & I). injection E as <- ->. split; intros ->.
    + apply accepted_why in I. destruct I as (_ & _ & _ & _ & _ & _ & B). rewrite (kept_banned a t) in B; [discriminate B | | |lia].
      * cbn [n_peers set_peers]. apply kept_get, K.
      * apply get_distinct, D.
    + apply attempted_why in I. destruct I as ((r1 & r2 & dns & ps & _ & E) & _). apply new_sound in E. destruct E as (p & I & A & (R & _) & _).
      destruct K as (q & J & A' & B & _). assert (p = q) by (apply (distinct_same (n_peers n)); congruence). subst q. lia.
  - refine (IH (fst (step time o n)) W' (step_distinct time o n D) _ now x I).
    eapply change_kept; [apply (step_change time a o n NR NU) | exact T | exact K].
Qed.
Lemma api_ban_kept a t n : spoken_recently a t n -> kept a t (BanPeer t a (n_peers n)).
Proof.
  intros H. unfold BanPeer. destruct (find_peer a (n_peers n)) as [p|] eqn:E.
  - apply find_in in E. destruct E as [I A]. exists (Ban t p). split.
    + pose proof (in_modify a (Ban t) p (n_peers n) I) as X. rewrite A, N.eqb_refl in X. exact X.
    + cbn. repeat split; [exact A | lia | apply (H p I A)].
  - exists (SetAttempt t (Ban t (new_peer a))). split; [apply emplace_new; intros q Q; exact (find_none _ _ q E Q)|]. cbn. repeat split; lia.
Qed.

(** * When nothing is accepted any more *)
Lemma listening_off now o n : o <> Restart -> n_listening n = false -> n_listening (fst (step now o n)) = false.
Proof.
  intros NR L. destruct o; cbn [PeerModel.step fst]; auto.
  - unfold Accept. rewrite L. cbn. exact L.
  - unfold SeedNewConnection. destruct (negb _); [exact L|]. destruct (GetNewPeer _ _ _ _ _) as [[c|] ps].
    + destruct (IsPeerBlocked _ _); [exact L|]. destruct (negb _); [exact L|]. destruct (negb _); exact L.
    + destruct (n_usedDNS _); exact L.
  - unfold Thread_Connect. destruct (nth_error _ _) as [k|]; [|exact L]. destruct (_ || _)%bool; [exact L|]. unfold Disconnect.
    destruct (_ || _)%bool; [destruct (k_terminate k); exact L|]. cbv zeta. destruct (_ && _)%bool; [destruct (k_terminate k); exact L|]. destruct (negb _); exact L.
  - unfold HandleReceived. destruct (nth_error _ _); [|exact L]. destruct (_ || _)%bool; [exact L|]. cbv zeta. destruct result; exact L.
  - unfold HandleError. destruct (nth_error _ _); [|exact L]. destruct (_ || _)%bool; exact L.
  - unfold Prune. destruct (nth_error _ _) as [k|]; [|exact L]. destruct (_ || _)%bool; [exact L|]. destruct (k_locked k); [exact L|]. cbv zeta.
    destruct (nth_error _ _); unfold Disconnect; destruct (k_terminate k); exact L.
  - unfold CheckPing. destruct (nth_error _ _) as [k|]; [|exact L]. destruct (_ && _)%bool; exact L.
  - congruence.
Qed.
Lemma asio_off now o n : o <> Restart -> n_asio n = false -> n_asio (fst (step now o n)) = false.
Proof.
  intros NR L. destruct o; cbn [PeerModel.step fst]; auto.
  - unfold Accept. rewrite L. rewrite orb_true_r. exact L.
  - unfold SeedNewConnection. destruct (negb _); [exact L|]. destruct (GetNewPeer _ _ _ _ _) as [[c|] ps].
    + destruct (IsPeerBlocked _ _); [exact L|]. destruct (negb _); [exact L|]. destruct (negb _); exact L.
    + destruct (n_usedDNS _); exact L.
  - unfold Thread_Connect. destruct (nth_error _ _) as [k|]; [|exact L]. destruct (_ || _)%bool; [exact L|]. unfold Disconnect.
    destruct (_ || _)%bool; [destruct (k_terminate k); exact L|]. cbv zeta. destruct (_ && _)%bool; [destruct (k_terminate k); exact L|]. destruct (negb _); exact L.
  - unfold HandleReceived. destruct (nth_error _ _); [|exact L]. rewrite L. cbn. exact L.
  - unfold HandleError. destruct (nth_error _ _); [|exact L]. rewrite L. cbn. exact L.
  - unfold Prune. destruct (nth_error _ _) as [k|]; [|exact L]. destruct (_ || _)%bool; [exact L|]. destruct (k_locked k); [exact L|]. cbv zeta.
    destruct (nth_error _ _); unfold Disconnect; destruct (k_terminate k); exact L.
  - unfold CheckPing. destruct (nth_error _ _) as [k|]; [|exact L]. destruct (_ && _)%bool; exact L.
  - congruence.
Qed.
Lemma run_deaf h : forall n, no_restart h -> n_listening n = false -> forall now a, ~ In (now, Accepted a) (snd (run h n)).
Proof.
  induction h as [|[time o] h IH]; intros n W L now a I; [destruct I|]. inversion W as [|? ? NR W']; subst. cbn beta iota in NR. rewrite run_cons in I. cbn [snd] in I.
  apply in_app_or in I. destruct I as [I|I].
  - apply in_map_iff in I. destruct I as (x & E & I). injection E as _ ->. apply accepted_why in I. destruct I as (_ & X & _). congruence.
  - apply (IH _ W' (listening_off time o n NR L) _ _ I).
Qed.
Lemma run_frozen h : forall n, no_restart h -> n_asio n = false -> forall now a, ~ In (now, Accepted a) (snd (run h n)) /\ ~ In (now, Processed a) (snd (run h n)).
Proof.
  induction h as [|[time o] h IH]; intros n W L now a; [split; intros []|]. inversion W as [|? ? NR W']; subst. cbn beta iota in NR. rewrite run_cons. cbn [snd].
  pose proof (IH _ W' (asio_off time o n NR L) now a) as [X Y]. split; intros I; apply in_app_or in I; destruct I as [I|I]; auto.
  - apply in_map_iff in I. destruct I as (x & E & I). injection E as _ ->. apply accepted_why in I. destruct I as (_ & _ & Z & _). congruence.
  - apply in_map_iff in I. destruct I as (x & E & I). injection E as _ ->. apply processed_why in I. destruct I as (Z & _). congruence.
Qed.
Lemma listening_on now o n : blocked = [] -> allowed = [] -> o <> AcceptFails -> n_listening n = true -> n_listening (fst (step now o n)) = true.
Proof.
  intros B A NA L. destruct o; cbn [PeerModel.step fst]; auto; try congruence.
  - unfold Accept. destruct (_ || _)%bool; [exact L|]. destruct (negb _); [exact L|]. unfold IsPeerBlocked, IsPeerAllowed. rewrite B, A. cbn [listed existsb negb].
    destruct (banned_addr _ _ _); exact L.
  - unfold SeedNewConnection. destruct (negb _); [exact L|]. destruct (GetNewPeer _ _ _ _ _) as [[c|] ps].
    + destruct (IsPeerBlocked _ _); [exact L|]. destruct (negb _); [exact L|]. destruct (negb _); exact L.
    + destruct (n_usedDNS _); exact L.
  - unfold Thread_Connect. destruct (nth_error _ _) as [k|]; [|exact L]. destruct (_ || _)%bool; [exact L|]. unfold Disconnect.
    destruct (_ || _)%bool; [destruct (k_terminate k); exact L|]. cbv zeta. destruct (_ && _)%bool; [destruct (k_terminate k); exact L|]. destruct (negb _); exact L.
  - unfold HandleReceived. destruct (nth_error _ _); [|exact L]. destruct (_ || _)%bool; [exact L|]. cbv zeta. destruct result; exact L.
  - unfold HandleError. destruct (nth_error _ _); [|exact L]. destruct (_ || _)%bool; exact L.
  - unfold Prune. destruct (nth_error _ _) as [k|]; [|exact L]. destruct (_ || _)%bool; [exact L|]. destruct (k_locked k); [exact L|]. cbv zeta.
    destruct (nth_error _ _); unfold Disconnect; destruct (k_terminate k); exact L.
  - unfold CheckPing. destruct (nth_error _ _) as [k|]; [|exact L]. destruct (_ && _)%bool; exact L.
Qed.

(** * Connections *)
Lemma nth_set_same {A} i (x y : A) l : nth_error l i = Some y -> nth_error (set_nth i x l) i = Some x.
Proof. revert i. induction l as [|z l IH]; intros [|i] H; try discriminate H; cbn in *; auto. Qed.
Lemma nth_set_other {A} i j (x : A) l : i <> j -> nth_error (set_nth i x l) j = nth_error l j.
Proof. revert i j. induction l as [|z l IH]; intros [|i] [|j] H; cbn; auto; congruence. Qed.
(** A connection that was banned by its own handler. *)
Definition survivor (i : nat) (a : N) (n : node) : Prop :=
  n_asio n = true /\ exists k, nth_error (n_links n) i = Some k /\ k_addr k = a /\ k_up k = true /\ k_open k = true /\ k_terminate k = true.
(** Neither this connection nor the thread fails by itself. *)
Definition no_failure (i : nat) (o : op) : Prop :=
  o <> Restart /\ o <> ReadFails i /\ (forall j, o <> Message j BadBody) /\ o <> Message i OtherException.
Lemma nth_app {A} i (l m : list A) x : nth_error l i = Some x -> nth_error (l ++ m) i = Some x.
Proof. intros H. rewrite nth_error_app1; [exact H|]. apply nth_error_Some. congruence. Qed.
Lemma survivor_links i a n n' : n_links n' = n_links n -> n_asio n' = n_asio n -> survivor i a n -> survivor i a n'.
Proof. unfold survivor. intros -> ->. auto. Qed.
Lemma survivor_set i a j k n : i <> j -> survivor i a n -> survivor i a (set_link j k n).
Proof.
  intros D (A & k' & N & H). split; [exact A|]. exists k'. split; [|exact H]. cbn [n_links set_link set_links]. rewrite nth_set_other by auto. exact N.
Qed.
Lemma survivor_same i a k n : survivor i a n -> k_addr k = a -> k_up k = true -> k_open k = true -> k_terminate k = true -> survivor i a (set_link i k n).
Proof.
  intros (A & k' & N & H) K1 K2 K3 K4. split; [exact A|]. exists k. split; [|auto]. cbn [n_links set_link set_links]. apply (nth_set_same _ _ k'), N.
Qed.
Lemma survivor_disconnect i a j k n : nth_error (n_links n) j = Some k -> survivor i a n -> survivor i a (Disconnect j k n).
Proof.
  intros N S. unfold Disconnect. destruct (k_terminate k) eqn:T; [exact S|]. apply survivor_set; [|exact S].
  intros <-. destruct S as (_ & k' & N' & _ & _ & _ & T'). congruence.
Qed.
Lemma survivor_step now o i a n : no_failure i o -> survivor i a n -> survivor i a (fst (step now o n)).
Proof.
  intros (F1 & F2 & F3 & F4) S. destruct o; cbn [PeerModel.step fst]; try exact S.
  - unfold Accept. destruct (_ || _)%bool; [exact S|]. destruct (negb _); [exact S|]. destruct (IsPeerBlocked _ _); [exact S|]. destruct (negb _); [exact S|].
    destruct (banned_addr _ _ _); [exact S|]. destruct S as (A & k & N & H). split; [exact A|]. exists k. split; [|exact H]. cbn [fst n_links set_links set_peers]. apply nth_app, N.
  - unfold SeedNewConnection. destruct (negb _); [exact S|]. destruct (GetNewPeer _ _ _ _ _) as [[c|] ps].
    + destruct (IsPeerBlocked _ _); [exact S|]. destruct (negb _); [exact S|]. destruct (negb _); [exact S|].
      destruct S as (A & k & N & H). split; [exact A|]. exists k. split; [|exact H]. cbn [fst n_links set_links set_peers]. apply nth_app, N.
    + destruct (n_usedDNS _); exact S.
  - unfold Thread_Connect. destruct (nth_error (n_links n) i0) as [k|] eqn:N; [|exact S]. destruct (k_up k || k_terminate k)%bool eqn:U; [exact S|].
    assert (D : i <> i0). { intros <-. destruct S as (_ & k' & N' & _ & U' & _). rewrite N in N'. injection N' as <-. rewrite U' in U. discriminate U. }
    clear U.
    destruct (_ || _)%bool; [cbn [fst]; apply survivor_disconnect; [exact N | exact S]|]. cbv zeta.
    destruct (_ && _)%bool; [cbn [fst]; apply survivor_disconnect; [exact N | exact S]|].
    destruct (negb _); [exact S|]. cbn [fst]. apply survivor_set; [exact D | exact S].
  - unfold HandleReceived. destruct (nth_error (n_links n) i0) as [k|] eqn:N; [|exact S]. destruct (_ || _)%bool eqn:Q; [exact S|]. cbv zeta.
    destruct (Nat.eq_dec i i0) as [<-|D].
    + destruct S as (A & k' & N' & S1 & S2 & S3 & S4). rewrite N in N'. injection N' as <-.
      assert (S : survivor i a n) by (split; [exact A | exists k; auto]).
      destruct result; cbn [fst k_addr k_outbound k_up k_managed k_open k_terminate k_locked].
      * apply survivor_same; cbn; auto.
      * apply survivor_same; cbn; auto. apply (survivor_links i a (set_link i (mkLink (k_addr k) (k_outbound k) (k_up k) (k_managed k) (k_open k) (k_terminate k) (k_locked k) now) n));
          [reflexivity | reflexivity|]. apply survivor_same; cbn; auto.
      * exfalso. apply (F3 i). reflexivity.
      * exfalso. apply F4. reflexivity.
    + destruct result; cbn [fst k_addr k_outbound k_up k_managed k_open k_terminate k_locked].
      * apply survivor_set; [exact D | exact S].
      * apply survivor_set; [exact D|]. apply (survivor_links i a (set_link i0 (mkLink (k_addr k) (k_outbound k) (k_up k) (k_managed k) (k_open k) (k_terminate k) (k_locked k) now) n));
          [reflexivity | reflexivity|]. apply survivor_set; [exact D | exact S].
      * exfalso. apply (F3 i0). reflexivity.
      * unfold Close. apply survivor_set; [exact D|]. apply (survivor_links i a (set_link i0 (mkLink (k_addr k) (k_outbound k) (k_up k) (k_managed k) (k_open k) (k_terminate k) (k_locked k) now) n));
          [reflexivity | reflexivity|]. apply survivor_set; [exact D | exact S].
  - unfold HandleError. destruct (nth_error (n_links n) i0) as [k|]; [|exact S]. destruct (_ || _)%bool; [exact S|]. unfold Close.
    apply survivor_set; [intros <-; apply F2; reflexivity | exact S].
  - unfold Prune. destruct (nth_error (n_links n) i0) as [k|] eqn:N; [|exact S]. destruct (_ || _)%bool; [exact S|]. destruct (k_locked k); [exact S|]. cbv zeta.
    pose proof (survivor_disconnect i a i0 k n N S) as S'. destruct (nth_error (n_links (Disconnect i0 k n)) i0) as [k1|] eqn:N1; [|exact S'].
    destruct (Nat.eq_dec i i0) as [<-|D]; [|apply survivor_set; [exact D | exact S']].
    destruct S' as (A & k' & N' & S1 & S2 & S3 & S4). rewrite N1 in N'. injection N' as <-.
    apply survivor_same; cbn; auto. split; [exact A | exists k1; auto].
  - unfold CheckPing. destruct (nth_error _ _) as [k|]; [|exact S]. destruct (_ && _)%bool; exact S.
  - congruence.
Qed.
Lemma survivor_run h i a : forall n, Forall (fun '(_, o) => no_failure i o) h -> survivor i a n -> survivor i a (fst (run h n)).
Proof.
  induction h as [|[now o] h IH]; intros n F S; [exact S|]. inversion F as [|? ? F1 F2]; subst. cbn beta iota in F1. rewrite run_cons. cbn [fst]. apply IH; [exact F2|].
  apply survivor_step; [exact F1 | exact S].
Qed.

(** A connection that was closed stays closed. *)
Definition shut (i : nat) (n : node) : Prop := exists k, nth_error (n_links n) i = Some k /\ k_open k = false /\ k_terminate k = true.
Lemma shut_set i j k n : i <> j \/ (k_open k = false /\ k_terminate k = true) -> shut i n -> shut i (set_link j k n).
Proof.
  intros D (k' & N & H). destruct (Nat.eq_dec i j) as [<-|E].
  - destruct D as [D|D]; [congruence|]. exists k. split; [|exact D]. cbn [n_links set_link set_links]. apply (nth_set_same _ _ k'), N.
  - exists k'. split; [|exact H]. cbn [n_links set_link set_links]. rewrite nth_set_other by auto. exact N.
Qed.
Lemma shut_disconnect i j k n : shut i n -> shut i (Disconnect j k n).
Proof. intros S. unfold Disconnect. destruct (k_terminate k); [exact S|]. apply shut_set; [right; auto | exact S]. Qed.
Lemma shut_step now o i n : o <> Restart -> shut i n -> shut i (fst (step now o n)).
Proof.
  intros NR S. destruct o; cbn [PeerModel.step fst]; try exact S.
  - unfold Accept. destruct (_ || _)%bool; [exact S|]. destruct (negb _); [exact S|]. destruct (IsPeerBlocked _ _); [exact S|]. destruct (negb _); [exact S|].
    destruct (banned_addr _ _ _); [exact S|]. destruct S as (k & N & H). exists k. split; [|exact H]. cbn [fst n_links set_links set_peers]. apply nth_app, N.
  - unfold SeedNewConnection. destruct (negb _); [exact S|]. destruct (GetNewPeer _ _ _ _ _) as [[c|] ps].
    + destruct (IsPeerBlocked _ _); [exact S|]. destruct (negb _); [exact S|]. destruct (negb _); [exact S|].
      destruct S as (k & N & H). exists k. split; [|exact H]. cbn [fst n_links set_links set_peers]. apply nth_app, N.
    + destruct (n_usedDNS _); exact S.
  - unfold Thread_Connect. destruct (nth_error (n_links n) i0) as [k|] eqn:N; [|exact S]. destruct (k_up k || k_terminate k)%bool eqn:U; [exact S|].
    assert (D : i <> i0). { intros <-. destruct S as (k' & N' & _ & T). rewrite N in N'. injection N' as <-. rewrite T, orb_true_r in U. discriminate U. }
    clear U.
    destruct (_ || _)%bool; [cbn [fst]; apply shut_disconnect; exact S|]. cbv zeta.
    destruct (_ && _)%bool; [cbn [fst]; apply shut_disconnect; exact S|].
    destruct (negb _); [exact S|]. cbn [fst]. apply shut_set; [left; exact D | exact S].
  - unfold HandleReceived. destruct (nth_error (n_links n) i0) as [k|] eqn:N; [|exact S]. destruct (_ || _)%bool eqn:Q; [exact S|]. cbv zeta.
    assert (D : i <> i0). { intros <-. destruct S as (k' & N' & O' & _). rewrite N in N'. injection N' as <-. rewrite O', orb_true_r in Q. discriminate Q. }
    assert (S' : shut i (set_link i0 (mkLink (k_addr k) (k_outbound k) (k_up k) (k_managed k) (k_open k) (k_terminate k) (k_locked k) now) n))
      by (apply shut_set; [left; exact D | exact S]).
    destruct result; cbn [fst k_addr k_outbound k_up k_managed k_open k_terminate k_locked].
    + exact S'.
    + apply shut_set; [left; exact D | exact S'].
    + apply (shut_set i i0 (mkLink (k_addr k) (k_outbound k) (k_up k) (k_managed k) (k_open k) (k_terminate k) true now)) in S'; [exact S' | left; exact D].
    + unfold Close. apply shut_set; [left; exact D | exact S'].
  - unfold HandleError. destruct (nth_error (n_links n) i0) as [k|] eqn:N; [|exact S]. destruct (_ || _)%bool eqn:Q; [exact S|]. unfold Close.
    apply shut_set; [|exact S]. left. intros <-. destruct S as (k' & N' & O' & _). rewrite N in N'. injection N' as <-. rewrite O', orb_true_r in Q. discriminate Q.
  - unfold Prune. destruct (nth_error (n_links n) i0) as [k|] eqn:N; [|exact S]. destruct (_ || _)%bool; [exact S|]. destruct (k_locked k); [exact S|]. cbv zeta.
    pose proof (shut_disconnect i i0 k n S) as S'. destruct (nth_error (n_links (Disconnect i0 k n)) i0) as [k1|] eqn:N1; [|exact S'].
    apply shut_set; [|exact S']. destruct (Nat.eq_dec i i0) as [<-|D]; [right | left; exact D].
    destruct S' as (k' & N' & O' & T'). rewrite N1 in N'. injection N' as <-. auto.
  - unfold CheckPing. destruct (nth_error _ _) as [k|]; [|exact S]. destruct (_ && _)%bool; exact S.
  - congruence.
Qed.
Lemma shut_run h i : forall n, no_restart h -> shut i n -> shut i (fst (run h n)).
Proof.
  induction h as [|[now o] h IH]; intros n F S; [exact S|]. inversion F as [|? ? F1 F2]; subst. cbn beta iota in F1. rewrite run_cons. cbn [fst]. apply IH; [exact F2|].
  apply shut_step; [exact F1 | exact S].
Qed.
Lemma shut_silent now i r n : shut i n -> step now (Message i r) n = (n, []).
Proof. intros (k & N & O' & _). cbn [PeerModel.step]. unfold HandleReceived. rewrite N, O'. cbn [negb]. rewrite orb_true_r. reflexivity. Qed.
End Node.
