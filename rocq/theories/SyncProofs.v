(** Proofs about synchronization. *)
From Verif Require Import Base Bytes ConsensusModel StateModel SyncModel SyncSpec.
Local Open Scope N_scope.

(** * The peers with the most work *)
(** [m]: the best of those seen, of work [mw] and height [mh]. *)
Definition best_so_far (seen : list conn) (mw mh : N) (m : list conn) : Prop :=
  (forall c, In c m -> In c seen /\ 0 < c_height c /\ c_difficulty c = mw /\ c_height c = mh) /\
  (forall d, In d seen -> 0 < c_height d -> c_difficulty d < mw \/ (c_difficulty d = mw /\ c_height d <= mh)) /\
  (forall d, In d seen -> 0 < c_height d -> c_difficulty d = mw -> c_height d = mh -> In d m) /\
  (m = [] -> mw = 0 /\ mh = 0).
Lemma most_work_best l : forall seen mw mh m, best_so_far seen mw mh m -> exists mw' mh', best_so_far (seen ++ l) mw' mh' (most_work l mw mh m).
Proof.
  induction l as [|c l IH]; intros seen mw mh m B; [exists mw, mh; rewrite app_nil_r; exact B|].
  cbn [most_work]. assert (Step : forall mw' mh' m', best_so_far (seen ++ [c]) mw' mh' m' -> exists mw'' mh'', best_so_far (seen ++ c :: l) mw'' mh'' (most_work l mw' mh' m')).
  { intros mw' mh' m' B'. specialize (IH (seen ++ [c]) mw' mh' m' B'). rewrite <- app_assoc in IH. exact IH. }
  destruct B as (B1 & B2 & B3 & B4).
  destruct (N.eqb_spec (c_height c) 0) as [H0|H0].
  { apply Step. split; [|split; [|split]].
    - intros d D. destruct (B1 d D) as (X & Y). split; [apply in_or_app; left; exact X|exact Y].
    - intros d D P. apply in_app_or in D. destruct D as [D|[<-|[]]]; [exact (B2 d D P)|lia].
    - intros d D P. apply in_app_or in D. destruct D as [D|[<-|[]]]; [exact (B3 d D P)|lia].
    - exact B4. }
  destruct (N.ltb_spec mw (c_difficulty c)) as [L|L].
  { apply Step. split; [|split; [|split]].
    - intros d [<-|[]]. repeat split; [apply in_or_app; right; left; reflexivity|lia].
    - intros d D P. apply in_app_or in D. destruct D as [D|[<-|[]]]; [destruct (B2 d D P); lia|right; lia].
    - intros d D P E1 E2. apply in_app_or in D. destruct D as [D|[<-|[]]]; [destruct (B2 d D P); lia|left; reflexivity].
    - discriminate. }
  destruct (N.eqb_spec (c_difficulty c) mw) as [Q|Q].
  - destruct (N.ltb_spec mh (c_height c)) as [L1|L1]; [|destruct (N.eqb_spec (c_height c) mh) as [Q1|Q1]]; apply Step.
    + split; [|split; [|split]].
      * intros d [<-|[]]. repeat split; [apply in_or_app; right; left; reflexivity|lia|exact Q].
      * intros d D P. apply in_app_or in D. destruct D as [D|[<-|[]]]; [destruct (B2 d D P); lia|right; lia].
      * intros d D P E1 E2. apply in_app_or in D. destruct D as [D|[<-|[]]]; [destruct (B2 d D P); lia|left; reflexivity].
      * discriminate.
    + split; [|split; [|split]].
      * intros d D. apply in_app_or in D. destruct D as [D|[<-|[]]]; [destruct (B1 d D) as (X & Y); split; [apply in_or_app; left; exact X|exact Y]|].
        repeat split; [apply in_or_app; right; left; reflexivity|lia|exact Q|exact Q1].
      * intros d D P. apply in_app_or in D. destruct D as [D|[<-|[]]]; [exact (B2 d D P)|right; lia].
      * intros d D P E1 E2. apply in_or_app. apply in_app_or in D. destruct D as [D|[<-|[]]]; [left; exact (B3 d D P E1 E2)|right; left; reflexivity].
      * intros E. apply app_eq_nil in E. destruct E; discriminate.
    + split; [|split; [|split]].
      * intros d D. destruct (B1 d D) as (X & Y). split; [apply in_or_app; left; exact X|exact Y].
      * intros d D P. apply in_app_or in D. destruct D as [D|[<-|[]]]; [exact (B2 d D P)|right; lia].
      * intros d D P E1 E2. apply in_app_or in D. destruct D as [D|[<-|[]]]; [exact (B3 d D P E1 E2)|lia].
      * exact B4.
  - apply Step. split; [|split; [|split]].
    + intros d D. destruct (B1 d D) as (X & Y). split; [apply in_or_app; left; exact X|exact Y].
    + intros d D P. apply in_app_or in D. destruct D as [D|[<-|[]]]; [exact (B2 d D P)|left; lia].
    + intros d D P E1 E2. apply in_app_or in D. destruct D as [D|[<-|[]]]; [exact (B3 d D P E1 E2)|lia].
    + exact B4.
Qed.
Lemma most_work_iff l c : In c (most_work l 0 0 []) <-> best_peer l c.
Proof.
  destruct (most_work_best l [] 0 0 []) as (mw & mh & B).
  { split; [intros c0 []|]. split; [intros d []|]. split; [intros d []|]. auto. }
  cbn [app] in B. destruct B as (B1 & B2 & B3 & B4). split.
  - intros I0. destruct (B1 c I0) as (X & Y & Z & U). split; [exact X|]. split; [exact Y|]. intros d D P. rewrite Z, U. exact (B2 d D P).
  - intros (X & Y & Z). destruct (most_work l 0 0 []) as [|e m] eqn:E.
    + destruct (B4 eq_refl) as (-> & ->). destruct (B2 c X Y) as [?|(E1 & E2)]; lia.
    + rewrite <- E in *. destruct (B1 e) as (X1 & Y1 & Z1 & U1); [rewrite E; left; reflexivity|].
      destruct (Z e X1 Y1) as [V|(V & V')]; destruct (B2 c X Y) as [V1|(V1 & V1')]; try (exfalso; lia). apply B3; [exact X|exact Y|lia|lia].
Qed.
Lemma most_work_peer r l c : GetMostWorkPeer r l = Some c -> best_peer l c.
Proof. intros E. apply most_work_iff. unfold GetMostWorkPeer in E. exact (nth_error_In _ _ E). Qed.
Lemma most_work_none r l : GetMostWorkPeer r l = None -> forall c, In c l -> c_height c = 0.
Proof.
  intros E c I0. unfold GetMostWorkPeer in E. destruct (most_work l 0 0 []) as [|e m] eqn:M.
  - destruct (most_work_best l [] 0 0 []) as (mw & mh & B). { split; [intros c0 []|]. split; [intros d []|]. split; [intros d []|]. auto. }
    rewrite M in B. cbn [app] in B. destruct B as (_ & B2 & _ & B4). destruct (B4 eq_refl) as (-> & ->). destruct (N.eq_dec (c_height c) 0) as [Z|Z]; [exact Z|].
    destruct (B2 c I0 ltac:(lia)) as [|]; lia.
  - apply nth_error_None in E. assert (r mod length (e :: m) < length (e :: m))%nat by (apply Nat.mod_upper_bound; discriminate). lia.
Qed.
Lemma most_work_peers r l p : In p (GetMostWorkPeers r l) -> exists c, In c l /\ c_addr c = p /\ 0 < c_height c /\ forall d, In d l -> 0 < c_height d -> c_difficulty d <= c_difficulty c.
Proof.
  unfold GetMostWorkPeers. destruct (GetMostWorkPeer r l) as [m|] eqn:E; [|intros []]. intros I0. apply in_map_iff in I0. destruct I0 as (c & <- & F).
  apply filter_In in F. destruct F as (F & G). apply andb_true_iff in G. destruct G as (G1 & G2). apply N.leb_le in G1. apply N.ltb_lt in G2.
  apply most_work_peer in E. destruct E as (_ & _ & E). exists c. repeat split; try assumption. intros d D P. destruct (E d D P); lia.
Qed.

(** * The map of requests *)
Lemma rfind_erase m h k : rfind (rerase m h) k = if k =? h then None else rfind m k.
Proof.
  induction m as [|(x, r) m IH]; [cbn; destruct (k =? h); reflexivity|]. change (rerase ((x, r) :: m) h) with (if negb (x =? h) then (x, r) :: rerase m h else rerase m h). cbn [rfind].
  destruct (N.eqb_spec x h) as [E1|N1]; cbn [negb rfind]; rewrite IH; destruct (N.eqb_spec k h) as [E2|N2]; destruct (N.eqb_spec x k) as [E3|N3]; try reflexivity; congruence.
Qed.
Lemma rfind_put m h r k : rfind (rput m h r) k = if k =? h then Some r else rfind m k.
Proof. unfold rput. cbn. rewrite rfind_erase. destruct (N.eqb_spec h k) as [->|N1]; [rewrite N.eqb_refl; reflexivity|]. destruct (N.eqb_spec k h); [congruence|reflexivity]. Qed.

Lemma asked_app a b : asked (a ++ b) = asked a ++ asked b.
Proof. induction a as [|[] a IH]; cbn; rewrite ?IH; reflexivity. Qed.
Lemma asked_from_app p a b : asked_from p (a ++ b) = (asked_from p a + asked_from p b)%nat.
Proof. induction a as [|[] a IH]; cbn; rewrite ?IH; try reflexivity. destruct (addr =? p); reflexivity. Qed.
Lemma can_send_in l p : can_send l p = true <-> exists c, In c l /\ c_addr c = p.
Proof.
  unfold can_send. rewrite existsb_exists. split; intros (c & I0 & E); exists c; (split; [exact I0|]); apply N.eqb_eq; exact E.
Qed.

(** * Collecting the blocks to request *)
(** A request that is not overdue, from a peer that is not known as slow. *)
Definition fresh (w : world) (m : requests) (slow : list N) (height : N) : Prop :=
  exists r, rfind m height = Some r /\ (w_now w <= rq_timeout r)%Z /\ IsSlowPeer slow (rq_peer r) = false.
(** Why a block is added to those to request: it never was, or its peer is slow; the peer may be banned for it. *)
Inductive added (w : world) (height : N) (b : BlockSyncer) (bans : list N) : BlockSyncer -> list N -> list action -> Prop :=
| added_new : rfind (bs_requested b) height = None -> added w height b bans b bans []
| added_slow r : rfind (bs_requested b) height = Some r -> ~ fresh w (bs_requested b) (bs_slow b) height -> (w_banned w (rq_peer r) || existsb (N.eqb (rq_peer r)) bans)%bool = true ->
    added w height b bans (mkBS (bs_lastHeight b) (bs_requested b) (rq_peer r :: bs_slow b)) bans []
| added_ban r : rfind (bs_requested b) height = Some r -> ~ fresh w (bs_requested b) (bs_slow b) height -> w_banned w (rq_peer r) = false -> rq_retried r = true \/ can_send (w_conns w) (rq_peer r) = false ->
    added w height b bans (mkBS (bs_lastHeight b) (bs_requested b) (rq_peer r :: bs_slow b)) (rq_peer r :: bans) [ABan (rq_peer r)].
(** The loop, by its cases. *)
Inductive run (w : world) (k : nat) : list (N * bytes) -> BlockSyncer -> list N -> list (N * bytes) -> list action -> BlockSyncer * list (N * bytes) * list action -> Prop :=
| run_nil b bans q a : run w k [] b bans q a (b, q, a)
| run_skip height hash l b bans q a z : w_processing w hash = true \/ w_hasBlock w height hash = true -> run w k l b bans q a z -> run w k ((height, hash) :: l) b bans q a z
| run_retry height hash l b bans q a r z : w_processing w hash = false -> w_hasBlock w height hash = false -> rfind (bs_requested b) height = Some r ->
    ~ fresh w (bs_requested b) (bs_slow b) height -> rq_retried r = false -> can_send (w_conns w) (rq_peer r) = true ->
    run w k l (mkBS (bs_lastHeight b) (rput (bs_requested b) height (mkReq (rq_peer r) (w_now w + 5) true)) (bs_slow b)) bans q (a ++ [ABlock (rq_peer r) hash]) z ->
    run w k ((height, hash) :: l) b bans q a z
| run_keep height hash l b bans q a z : w_processing w hash = false -> w_hasBlock w height hash = false -> fresh w (bs_requested b) (bs_slow b) height ->
    ((k <= length q)%nat /\ z = (b, q, a)) \/ ((length q < k)%nat /\ run w k l b bans q a z) -> run w k ((height, hash) :: l) b bans q a z
| run_add height hash l b bans q a b0 bans0 a0 z : w_processing w hash = false -> w_hasBlock w height hash = false -> added w height b bans b0 bans0 a0 ->
    ((k <= length q + 1)%nat /\ z = (b0, q ++ [(height, hash)], a ++ a0)) \/ ((length q + 1 < k)%nat /\ run w k l b0 bans0 (q ++ [(height, hash)]) (a ++ a0) z) ->
    run w k ((height, hash) :: l) b bans q a z.
Lemma collect_run w k l : forall b bans q a, run w k l b bans q a (collect w k l b bans q a).
Proof.
  induction l as [|(height, hash) l IH]; intros b bans q a; [apply run_nil|]. cbn [collect].
  destruct (w_processing w hash || w_hasBlock w height hash)%bool eqn:Pr; [apply run_skip; [apply orb_true_iff; exact Pr|apply IH]|].
  apply orb_false_iff in Pr. destruct Pr as (Pr1 & Pr2).
  assert (Next : forall b0 bans0 q0 a0, (length q0 = length q + 1)%nat -> let z := if (k <=? length q0)%nat then (b0, q0, a0) else collect w k l b0 bans0 q0 a0 in
    ((k <= length q + 1)%nat /\ z = (b0, q0, a0)) \/ ((length q + 1 < k)%nat /\ run w k l b0 bans0 q0 a0 z)).
  { intros b0 bans0 q0 a0 L z. unfold z. destruct (Nat.leb_spec k (length q0)); [left; split; [lia|reflexivity]|right; split; [lia|apply IH]]. }
  assert (Lq : forall x : N * bytes, (length (q ++ [x]) = length q + 1)%nat) by (intros; rewrite app_length; reflexivity).
  destruct (rfind (bs_requested b) height) as [r|] eqn:R.
  - destruct (IsSlowPeer (bs_slow b) (rq_peer r) || (rq_timeout r <? w_now w)%Z)%bool eqn:Sl.
    + assert (NF : ~ fresh w (bs_requested b) (bs_slow b) height).
      { intros (r' & X1 & X2 & X3). rewrite R in X1. injection X1 as <-. rewrite X3 in Sl. cbn in Sl. apply Z.ltb_lt in Sl. lia. }
      destruct (w_banned w (rq_peer r) || existsb (N.eqb (rq_peer r)) bans)%bool eqn:Bn.
      * eapply run_add; [exact Pr1|exact Pr2|exact (added_slow _ _ _ _ r R NF Bn)|]. rewrite app_nil_r. apply Next, Lq.
      * apply orb_false_iff in Bn. destruct (negb (rq_retried r) && can_send (w_conns w) (rq_peer r))%bool eqn:Rt.
        -- apply andb_true_iff in Rt. destruct Rt as (Rt & Cs). apply negb_true_iff in Rt. eapply run_retry; [exact Pr1|exact Pr2|exact R|exact NF|exact Rt|exact Cs|apply IH].
        -- eapply run_add; [exact Pr1|exact Pr2|apply (added_ban _ _ _ _ r R NF (proj1 Bn))|apply Next, Lq].
           apply andb_false_iff in Rt. destruct Rt as [Rt|Rt]; [left; apply negb_false_iff; exact Rt|right; exact Rt].
    + apply orb_false_iff in Sl. destruct Sl as (Sl1 & Sl2). apply run_keep; [exact Pr1|exact Pr2|exists r; repeat split; [exact R|apply Z.ltb_ge; exact Sl2|exact Sl1]|].
      destruct (Nat.leb_spec k (length q)); [left; split; [lia|reflexivity]|right; split; [lia|apply IH]].
  - eapply run_add; [exact Pr1|exact Pr2|exact (added_new _ _ _ _ R)|]. rewrite app_nil_r. apply Next, Lq.
Qed.
Lemma run_inv w k height hash l b bans q a z : run w k ((height, hash) :: l) b bans q a z ->
  ((w_processing w hash = true \/ w_hasBlock w height hash = true) /\ run w k l b bans q a z) \/
  (w_processing w hash = false /\ w_hasBlock w height hash = false /\
   ((exists r, rfind (bs_requested b) height = Some r /\ ~ fresh w (bs_requested b) (bs_slow b) height /\ rq_retried r = false /\ can_send (w_conns w) (rq_peer r) = true /\
      run w k l (mkBS (bs_lastHeight b) (rput (bs_requested b) height (mkReq (rq_peer r) (w_now w + 5) true)) (bs_slow b)) bans q (a ++ [ABlock (rq_peer r) hash]) z) \/
    (fresh w (bs_requested b) (bs_slow b) height /\ (((k <= length q)%nat /\ z = (b, q, a)) \/ ((length q < k)%nat /\ run w k l b bans q a z))) \/
    (exists b0 bans0 a0, added w height b bans b0 bans0 a0 /\
      (((k <= length q + 1)%nat /\ z = (b0, q ++ [(height, hash)], a ++ a0)) \/ ((length q + 1 < k)%nat /\ run w k l b0 bans0 (q ++ [(height, hash)]) (a ++ a0) z))))).
Proof.
  intros R. inversion R; subst; [left; split; assumption|right..]; split; try assumption; split; try assumption.
  - left. eexists. repeat split; eassumption.
  - right. left. split; assumption.
  - right. right. do 3 eexists. split; eassumption.
Qed.
Lemma added_map w h b bans b0 bans0 a0 : added w h b bans b0 bans0 a0 -> bs_requested b0 = bs_requested b /\ (forall p, IsSlowPeer (bs_slow b) p = true -> IsSlowPeer (bs_slow b0) p = true) /\
  asked a0 = [] /\ ~ fresh w (bs_requested b) (bs_slow b) h.
Proof.
  intros A. destruct A as [R|r R F B|r R F B C]; cbn; (split; [reflexivity|]); (split; [intros p P; first [exact P|unfold IsSlowPeer in *; cbn; rewrite P; apply orb_true_r]|]); (split; [reflexivity|]); try exact F.
  intros (r & X & _). congruence.
Qed.
Lemma fresh_slow w m slow slow' h : (forall p, IsSlowPeer slow p = true -> IsSlowPeer slow' p = true) -> fresh w m slow' h -> fresh w m slow h.
Proof. intros Sl (r & X1 & X2 & X3). exists r. repeat split; [exact X1|exact X2|]. destruct (IsSlowPeer slow (rq_peer r)) eqn:E; [|reflexivity]. rewrite (Sl _ E) in X3. discriminate. Qed.

(** Peers only become slow; requests at other heights stay. *)
Lemma run_mono w k l b bans q a z : run w k l b bans q a z ->
  (forall p, IsSlowPeer (bs_slow b) p = true -> IsSlowPeer (bs_slow (fst (fst z))) p = true) /\
  (forall h, ~ In h (map fst l) -> rfind (bs_requested (fst (fst z))) h = rfind (bs_requested b) h) /\
  (forall h, outstanding w (bs_requested b) h -> outstanding w (bs_requested (fst (fst z))) h).
Proof.
  revert b bans q a z. induction l as [|(height, hash) l IH]; intros b bans q a z R; [inversion R; subst; cbn; auto|].
  assert (Sub : forall h, ~ In h (map fst ((height, hash) :: l)) -> h <> height /\ ~ In h (map fst l)).
  { intros h Hh. split; [intros C; apply Hh; left; symmetry; exact C|intros C; apply Hh; right; exact C]. }
  apply run_inv in R. destruct R as [(_ & R)|(_ & _ & [(r & Rf & _ & _ & _ & R)|[(_ & [(_ & ->)|(_ & R)])|(b0 & bans0 & a0 & A & Z)]])].
  - destruct (IH _ _ _ _ _ R) as (X1 & X2 & X3). split; [exact X1|]. split; [|exact X3]. intros h Hh. apply X2. exact (proj2 (Sub h Hh)).
  - destruct (IH _ _ _ _ _ R) as (X1 & X2 & X3). cbn [bs_slow bs_requested] in *. split; [exact X1|]. split.
    + intros h Hh. destruct (Sub h Hh) as (S1 & S2). rewrite X2 by exact S2. rewrite rfind_put. destruct (N.eqb_spec h height); [contradiction|reflexivity].
    + intros h (r0 & O1 & O2). apply X3. destruct (N.eq_dec h height) as [->|Ne].
      * eexists. split; [rewrite rfind_put, N.eqb_refl; reflexivity|]. cbn. lia.
      * exists r0. rewrite rfind_put. destruct (N.eqb_spec h height); [contradiction|]. auto.
  - cbn. auto.
  - destruct (IH _ _ _ _ _ R) as (X1 & X2 & X3). split; [exact X1|]. split; [|exact X3]. intros h Hh. apply X2. exact (proj2 (Sub h Hh)).
  - destruct (added_map _ _ _ _ _ _ _ A) as (E1 & E2 & _). destruct Z as [(_ & ->)|(_ & R)]; cbn [fst]; [rewrite E1; auto|].
    destruct (IH _ _ _ _ _ R) as (X1 & X2 & X3). rewrite E1 in *. split; [auto|]. split; [|exact X3]. intros h Hh. apply X2. exact (proj2 (Sub h Hh)).
Qed.

(** Every block that was looked at is taken care of; if not all were, there are enough to request. *)
Lemma run_covers w k l b bans q a z : run w k l b bans q a z ->
  exists done rest, l = done ++ rest /\ (rest = [] \/ (k <= length (snd (fst z)))%nat) /\ (forall x, In x q -> In x (snd (fst z))) /\ (length (snd (fst z)) <= length q + length done)%nat /\
    forall height hash, In (height, hash) done ->
      w_processing w hash = true \/ w_hasBlock w height hash = true \/ In (height, hash) (snd (fst z)) \/ outstanding w (bs_requested (fst (fst z))) height.
Proof.
  revert b bans q a z. induction l as [|(height, hash) l IH]; intros b bans q a z R.
  { inversion R; subst. exists [], []. cbn. split; [reflexivity|]. split; [left; reflexivity|]. split; [auto|]. split; [lia|]. intros h x []. }
  apply run_inv in R. destruct R as [(Pr & R)|(P1 & P2 & [(r & Rf & _ & _ & _ & R)|[(F & Z)|(b0 & bans0 & a0 & A & Z)]])].
  - destruct (IH _ _ _ _ _ R) as (dn & rest & -> & D1 & D2 & D3 & D4). exists ((height, hash) :: dn), rest. split; [reflexivity|]. split; [exact D1|]. split; [exact D2|]. split; [cbn; lia|].
    intros h x [X|X]; [injection X as <- <-; tauto|exact (D4 h x X)].
  - destruct (IH _ _ _ _ _ R) as (dn & rest & -> & D1 & D2 & D3 & D4). exists ((height, hash) :: dn), rest. split; [reflexivity|]. split; [exact D1|]. split; [exact D2|]. split; [cbn; lia|].
    intros h x [X|X]; [injection X as <- <-|exact (D4 h x X)]. right. right. right. destruct (run_mono _ _ _ _ _ _ _ _ R) as (_ & _ & M). apply M. cbn.
    eexists. split; [rewrite rfind_put, N.eqb_refl; reflexivity|]. cbn. lia.
  - assert (Ou : outstanding w (bs_requested b) height) by (destruct F as (r & F1 & F2 & _); exists r; auto).
    destruct Z as [(Lk & ->)|(Lk & R)].
    + exists [(height, hash)], l. cbn. split; [reflexivity|]. split; [right; exact Lk|]. split; [auto|]. split; [lia|]. intros h x [X|[]]. injection X as <- <-. tauto.
    + destruct (IH _ _ _ _ _ R) as (dn & rest & -> & D1 & D2 & D3 & D4). exists ((height, hash) :: dn), rest. split; [reflexivity|]. split; [exact D1|]. split; [exact D2|]. split; [cbn; lia|].
      intros h x [X|X]; [injection X as <- <-|exact (D4 h x X)]. right. right. right. destruct (run_mono _ _ _ _ _ _ _ _ R) as (_ & _ & M). apply M. exact Ou.
  - destruct Z as [(Lk & ->)|(Lk & R)].
    + exists [(height, hash)], l. cbn. rewrite app_length. cbn. split; [reflexivity|]. split; [right; exact Lk|]. split; [intros x X; apply in_or_app; left; exact X|]. split; [lia|].
      intros h x [X|[]]. injection X as <- <-. right. right. left. apply in_or_app. right. left. reflexivity.
    + destruct (IH _ _ _ _ _ R) as (dn & rest & -> & D1 & D2 & D3 & D4). rewrite app_length in D3. cbn in D3. exists ((height, hash) :: dn), rest. split; [reflexivity|]. split; [exact D1|].
      split; [intros x X; apply D2, in_or_app; left; exact X|]. split; [cbn; lia|].
      intros h x [X|X]; [injection X as <- <-|exact (D4 h x X)]. right. right. left. apply D2, in_or_app. right. left. reflexivity.
Qed.

(** What is requested: the blocks [x] of [q1], and those asked for again in [a1]. *)
Definition wanted (w : world) (l : list (N * bytes)) (m : requests) (slow : list N) (x : N * bytes) : Prop :=
  In x l /\ w_processing w (snd x) = false /\ w_hasBlock w (fst x) (snd x) = false /\ ~ fresh w m slow (fst x).
Lemma run_asks w k l b bans q a z : NoDup (map fst l) -> run w k l b bans q a z ->
  exists q1 a1 again, snd (fst z) = q ++ q1 /\ snd z = a ++ a1 /\ ((length q < k)%nat -> (length (q ++ q1) <= k)%nat) /\
    NoDup (map fst (q1 ++ again)) /\ (forall x, In x (q1 ++ again) -> wanted w l (bs_requested b) (bs_slow (fst (fst z))) x) /\
    asked a1 = map snd again /\
    (forall p x, In (ABlock p x) a1 -> can_send (w_conns w) p = true /\ exists h r, rfind (bs_requested b) h = Some r /\ rq_peer r = p) /\
    (forall p, In (ABan p) a1 -> w_banned w p = false /\ exists h r, In h (map fst l) /\ rfind (bs_requested b) h = Some r /\ rq_peer r = p /\ (rq_retried r = true \/ can_send (w_conns w) p = false)) /\
    (forall c, In c a1 -> match c with ABlock _ _ | ABan _ => True | _ => False end).
Proof.
  revert b bans q a z. induction l as [|(height, hash) l IH]; intros b bans q a z Nd R.
  { inversion R; subst. exists [], [], []. cbn. rewrite !app_nil_r. repeat split; try constructor; try contradiction; try lia. }
  cbn [map fst] in Nd. apply NoDup_cons_iff in Nd. destruct Nd as (Nh & Nd).
  assert (Wl : forall m slow x, wanted w l m slow x -> wanted w ((height, hash) :: l) m slow x) by (intros m slow x (X1 & X2); split; [right; exact X1|exact X2]).
  assert (Ih : forall h : N, In h (map fst l) -> In h (map fst ((height, hash) :: l))) by (intros h X; right; exact X).
  apply run_inv in R. destruct R as [(Pr & R)|(P1 & P2 & [(r & Rf & NF & Rt & Cs & R)|[(F & Z)|(b0 & bans0 & a0 & A & Z)]])].
  - destruct (IH _ _ _ _ _ Nd R) as (q1 & a1 & ag & E1 & E2 & L & N1 & W1 & K & B1 & B2 & B3). exists q1, a1, ag.
    split; [exact E1|]. split; [exact E2|]. split; [exact L|]. split; [exact N1|]. split; [intros x X; apply Wl, W1, X|]. split; [exact K|]. split; [exact B1|]. split; [|exact B3].
    intros p P. destruct (B2 p P) as (X1 & h & r & X2 & X3). split; [exact X1|]. exists h, r. split; [right; exact X2|exact X3].
  - destruct (IH _ _ _ _ _ Nd R) as (q1 & a1 & ag & E1 & E2 & L & N1 & W1 & K & B1 & B2 & B3). cbn [bs_requested bs_slow] in *.
    destruct (run_mono _ _ _ _ _ _ _ _ R) as (M & _ & _). cbn [bs_slow] in M.
    assert (Rl : forall h, h <> height -> rfind (rput (bs_requested b) height (mkReq (rq_peer r) (w_now w + 5) true)) h = rfind (bs_requested b) h).
    { intros h Hn. rewrite rfind_put. destruct (N.eqb_spec h height); [contradiction|reflexivity]. }
    assert (In_l : forall x, In x (q1 ++ ag) -> fst x <> height). { intros x X C. apply Nh. rewrite <- C. apply in_map. destruct (W1 x X) as (Y & _). exact Y. }
    exists q1, (ABlock (rq_peer r) hash :: a1), ((height, hash) :: ag). split; [exact E1|]. split; [rewrite E2, <- app_assoc; reflexivity|]. split; [exact L|]. split.
    { rewrite map_app in *. cbn [map fst]. apply NoDup_Add with (a := height) (l := map fst q1 ++ map fst ag); [apply Add_app|]. split; [exact N1|].
      rewrite <- map_app. intros C. apply in_map_iff in C. destruct C as (x & C1 & C2). exact (In_l x C2 C1). }
    split.
    { intros x X. apply in_app_or in X. destruct X as [X|[<-|X]].
      - destruct (W1 x) as (Y1 & Y2 & Y3 & Y4); [apply in_or_app; left; exact X|]. split; [right; exact Y1|]. split; [exact Y2|]. split; [exact Y3|]. intros (r0 & F1 & F2). apply Y4. exists r0.
        rewrite Rl by (apply In_l, in_or_app; left; exact X). auto.
      - split; [left; reflexivity|]. split; [exact P1|]. split; [exact P2|]. cbn. intros F. apply NF. exact (fresh_slow _ _ _ _ _ M F).
      - destruct (W1 x) as (Y1 & Y2 & Y3 & Y4); [apply in_or_app; right; exact X|]. split; [right; exact Y1|]. split; [exact Y2|]. split; [exact Y3|]. intros (r0 & F1 & F2). apply Y4. exists r0.
        rewrite Rl by (apply In_l, in_or_app; right; exact X). auto. }
    split; [cbn; rewrite K; reflexivity|]. split.
    { intros p x [X|X]; [injection X as <- <-; split; [exact Cs|exists height, r; auto]|]. destruct (B1 p x X) as (Y1 & h & r0 & Y2 & Y3). split; [exact Y1|].
      destruct (N.eq_dec h height) as [->|Ne]; [|exists h, r0; rewrite <- Rl by exact Ne; auto]. rewrite rfind_put, N.eqb_refl in Y2. injection Y2 as <-. exists height, r. auto. }
    split.
    { intros p [X|X]; [discriminate|]. destruct (B2 p X) as (Y1 & h & r0 & Y0 & Y2 & Y3). split; [exact Y1|]. exists h, r0. split; [right; exact Y0|]. rewrite <- Rl; [auto|]. intros C. apply Nh. rewrite <- C. exact Y0. }
    intros c [<-|C]; [exact I|exact (B3 c C)].
  - destruct Z as [(Lk & ->)|(Lk & R)].
    + exists [], [], []. cbn. rewrite !app_nil_r. repeat split; try constructor; try contradiction; try lia.
    + destruct (IH _ _ _ _ _ Nd R) as (q1 & a1 & ag & E1 & E2 & L & N1 & W1 & K & B1 & B2 & B3). exists q1, a1, ag.
      split; [exact E1|]. split; [exact E2|]. split; [exact L|]. split; [exact N1|]. split; [intros x X; apply Wl, W1, X|]. split; [exact K|]. split; [exact B1|]. split; [|exact B3].
      intros p P. destruct (B2 p P) as (X1 & h & r & X2 & X3). split; [exact X1|]. exists h, r. split; [right; exact X2|exact X3].
  - destruct (added_map _ _ _ _ _ _ _ A) as (E1 & E2 & E3 & NF).
    assert (Ba : (forall p, In (ABan p) a0 -> w_banned w p = false /\ exists h r, In h (map fst ((height, hash) :: l)) /\ rfind (bs_requested b) h = Some r /\ rq_peer r = p /\ (rq_retried r = true \/ can_send (w_conns w) p = false)) /\
      forall c, In c a0 -> match c with ABan _ => True | _ => False end).
    { destruct A as [Rf|r Rf _ _|r Rf _ Bn Rc]; (split; [intros p P|intros c C]); try contradiction; [|destruct C as [<-|[]]; exact I]. destruct P as [P|[]]. injection P as <-.
      split; [exact Bn|]. exists height, r. split; [left; reflexivity|]. auto. }
    destruct Ba as (Ba & Bk).
    destruct Z as [(Lk & ->)|(Lk & R)].
    + exists [(height, hash)], a0, []. cbn [fst snd]. split; [reflexivity|]. split; [reflexivity|]. split; [intros ?; rewrite app_length; cbn; lia|]. split; [cbn; repeat constructor; intros []|]. split.
      { intros x [<-|[]]. split; [left; reflexivity|]. split; [exact P1|]. split; [exact P2|]. cbn. intros F. apply NF. exact (fresh_slow _ _ _ _ _ E2 F). }
      split; [exact E3|]. split; [intros p x X; destruct (Bk _ X)|]. split; [exact Ba|]. intros c C. specialize (Bk c C). destruct c; try contradiction; exact I.
    + destruct (IH _ _ _ _ _ Nd R) as (q1 & a1 & ag & F1 & F2 & L & N1 & W1 & K & B1 & B2 & B3). rewrite E1 in *.
      destruct (run_mono _ _ _ _ _ _ _ _ R) as (M & _ & _).
      exists ((height, hash) :: q1), (a0 ++ a1), ag. split; [rewrite F1, <- app_assoc; reflexivity|]. split; [rewrite F2, app_assoc; reflexivity|]. split.
      { intros H. rewrite <- app_assoc in L. rewrite app_length in L at 1. cbn [length] in L. apply L. lia. }
      split. { cbn. constructor; [|exact N1]. intros C. apply in_map_iff in C. destruct C as (x & C1 & C2). apply Nh. rewrite <- C1. apply in_map. destruct (W1 x C2) as (Y & _). exact Y. }
      split.
      { intros x [<-|X]; [|apply Wl, W1, X]. split; [left; reflexivity|]. split; [exact P1|]. split; [exact P2|]. cbn. intros F. apply NF. apply (fresh_slow _ _ _ _ _ E2). exact (fresh_slow _ _ _ _ _ M F). }
      split; [rewrite asked_app, E3; exact K|]. split; [intros p x X; apply in_app_or in X; destruct X as [X|X]; [destruct (Bk _ X)|exact (B1 p x X)]|]. split.
      { intros p X. apply in_app_or in X. destruct X as [X|X]; [exact (Ba p X)|]. destruct (B2 p X) as (Y1 & h & r & Y2 & Y3). split; [exact Y1|]. exists h, r. split; [right; exact Y2|exact Y3]. }
      intros c C. apply in_app_or in C. destruct C as [C|C]; [specialize (Bk c C); destruct c; try contradiction; exact I|exact (B3 c C)].
Qed.

(** * Sending the requests *)
Lemma send_outstanding w peers l : forall nx i m a, (forall p, In p peers -> can_send (w_conns w) p = true) -> (nx < length peers)%nat -> let '(m', a') := send_requests w peers nx i l m a in
  (forall h, outstanding w m h -> outstanding w m' h) /\ (forall x, In x l -> outstanding w m' (fst x)) /\ (forall h, ~ In h (map fst l) -> rfind m' h = rfind m h) /\
  exists a1, a' = a ++ a1 /\ asked a1 = map snd l /\ (forall c, In c a1 -> exists p x, c = ABlock p x /\ In p peers) /\
  (forall n s, n = length peers -> (0 < n)%nat -> nx = ((s + i / 16) mod n)%nat ->
     forall p, asked_from p a1 = length (filter (fun j => nth ((s + j / 16) mod n)%nat peers 0 =? p) (seq i (length l)))).
Proof.
  induction l as [|(height, hash) l IH]; intros nx i m a Cs Hx; cbn [send_requests].
  { split; [auto|]. split; [intros x []|]. split; [reflexivity|]. exists []. rewrite app_nil_r. repeat split. intros c []. }
  rewrite (Cs _ (nth_In _ _ Hx)). specialize (IH (if ((i + 1) mod 16 =? 0)%nat then (nx + 1) mod length peers else nx)%nat (i + 1)%nat (rput m height (mkReq (nth nx peers 0) (w_now w + 10) false)) (a ++ [ABlock (nth nx peers 0) hash]) Cs).
  lapply IH; [clear IH; intros IH|destruct (_ =? 0)%nat; [apply Nat.mod_upper_bound; lia|exact Hx]].
  destruct (send_requests w peers _ _ l _ _) as (m', a'). destruct IH as (O1 & O2 & O3 & a1 & -> & A1 & A2 & A3).
  assert (Op : forall h, outstanding w m h \/ h = height -> outstanding w (rput m height (mkReq (nth nx peers 0) (w_now w + 10) false)) h).
  { intros h Hh. destruct (N.eq_dec h height) as [->|Ne]; [eexists; split; [rewrite rfind_put, N.eqb_refl; reflexivity|cbn; lia]|]. destruct Hh as [(r & X1 & X2)|]; [|contradiction].
    exists r. rewrite rfind_put. destruct (N.eqb_spec h height); [contradiction|]. auto. }
  split; [intros h Hh; apply O1, Op; left; exact Hh|]. split; [intros x [<-|X]; [apply O1, Op; right; reflexivity|exact (O2 x X)]|]. split.
  { intros h Hh. rewrite O3 by (intros C; apply Hh; right; exact C). rewrite rfind_put. destruct (N.eqb_spec h height) as [->|]; [exfalso; apply Hh; left; reflexivity|reflexivity]. }
  exists (ABlock (nth nx peers 0) hash :: a1). split; [rewrite <- app_assoc; reflexivity|]. split; [cbn; rewrite A1; reflexivity|]. split.
  { intros c [<-|C]; [exists (nth nx peers 0), hash; split; [reflexivity|apply nth_In; exact Hx]|exact (A2 c C)]. }
  intros n s En Hn Ex p. cbn [asked_from length seq filter].
  assert (Hd : forall x, ((x + 1) / 16 = if (x + 1) mod 16 =? 0 then x / 16 + 1 else x / 16)%nat).
  { clear. intros x. pose proof (Nat.div_mod x 16 ltac:(discriminate)) as D. pose proof (Nat.mod_upper_bound x 16 ltac:(discriminate)) as B.
    destruct (Nat.eq_dec (x mod 16) 15) as [E|E].
    - assert (X : ((x + 1) = (x / 16 + 1) * 16)%nat) by lia. rewrite X. rewrite Nat.mod_mul, Nat.div_mul by discriminate. reflexivity.
    - assert (X : ((x + 1) = (x mod 16 + 1) + (x / 16) * 16)%nat) by lia. rewrite X. rewrite Nat.mod_add, Nat.div_add by discriminate. rewrite (Nat.mod_small (x mod 16 + 1)), (Nat.div_small (x mod 16 + 1)) by lia.
      destruct (Nat.eqb_spec (x mod 16 + 1) 0); [lia|reflexivity]. }
  rewrite Ex. rewrite (A3 n s En Hn) by (rewrite Hd; destruct ((i + 1) mod 16 =? 0)%nat; [rewrite Ex, <- En, Nat.add_mod_idemp_l by lia; f_equal; lia|exact Ex]).
  replace (i + 1)%nat with (S i) by lia. destruct (_ =? p); reflexivity.
Qed.
Lemma turn_around n s c d : (s < n -> c < n -> d < n -> (s + c) mod n = (s + d) mod n -> c = d)%nat.
Proof.
  intros Hs Hc Hd. assert (M : forall x, (x < n -> (s + x) mod n = if s + x <? n then s + x else s + x - n)%nat).
  { intros x Hx. destruct (Nat.ltb_spec (s + x) n); [apply Nat.mod_small; assumption|]. replace (s + x)%nat with (s + x - n + 1 * n)%nat at 1 by lia. rewrite Nat.mod_add by lia. apply Nat.mod_small. lia. }
  rewrite !M by assumption. destruct (Nat.ltb_spec (s + c) n), (Nat.ltb_spec (s + d) n); lia.
Qed.
Lemma sixteen (peers : list N) s len p : NoDup peers -> (s < length peers)%nat -> (len <= 16 * length peers)%nat ->
  (length (filter (fun j => (nth ((s + j / 16) mod length peers)%nat peers 0 =? p)%N) (seq 0 len)) <= 16)%nat.
Proof.
  intros Nd Hs Hl. set (n := length peers) in *. set (F := filter _ _).
  assert (NdF : NoDup F) by (apply NoDup_filter, seq_NoDup).
  destruct F as [|j0 F0] eqn:EF; [cbn; lia|]. rewrite <- EF in *. assert (J : forall j, In j F -> (j < len)%nat /\ nth ((s + j / 16) mod n)%nat peers 0 = p).
  { intros j I0. unfold F in I0. apply filter_In in I0. destruct I0 as (I1 & I2). apply in_seq in I1. apply N.eqb_eq in I2. split; [lia|exact I2]. }
  assert (D16 : forall j, (j < len -> j / 16 < n)%nat) by (intros j Hj; apply Nat.div_lt_upper_bound; [discriminate|lia]).
  set (c0 := (j0 / 16)%nat). assert (J0 : In j0 F) by (rewrite EF; left; reflexivity). clearbody F. clear EF.
  etransitivity; [apply (NoDup_incl_length NdF (l' := seq (16 * c0) 16))|rewrite seq_length; lia]. intros j I0. destruct (J j I0) as (J1 & J2). destruct (J j0 J0) as (K1 & K2).
  assert (E : ((s + j / 16) mod n = (s + c0) mod n)%nat).
  { apply (proj1 (NoDup_nth peers 0) Nd); [apply Nat.mod_upper_bound; lia|apply Nat.mod_upper_bound; lia|]. rewrite J2. symmetry. exact K2. }
  apply turn_around in E; [|exact Hs|apply D16; exact J1|apply D16; exact K1]. apply in_seq.
  pose proof (Nat.div_mod j 16 ltac:(discriminate)). pose proof (Nat.mod_upper_bound j 16 ltac:(discriminate)). lia.
Qed.
