(** Work, MMR and linkage invariants of header processing; rejected batches; termination. *)
From Verif Require Import Base Bytes MMRIndexModel MMRHashModel MMRHashSpec MMRHashProofs CodecModel ConsensusModel CuckooModel
  DifficultyModel CacheModel CacheSpec HeaderModel HeaderSpec HeaderProofs HeaderInv.
Local Open Scope N_scope.

Definition uniq (l : list (bytes * BlockHeader)) : Prop := forall k h h', In (k, h) l -> In (k, h') l -> h = h'.
Lemma find_unique l k h : uniq l -> In (k, h) l -> db_find l k = Some h.
Proof. intros U H. destruct (in_db_find _ _ _ H) as [w W]. rewrite W. f_equal. eapply U; [apply db_find_in, W|exact H]. Qed.
Lemma uniq_app a b : uniq (a ++ b) -> uniq b.
Proof. intros U k h h' H1 H2. apply (U k); apply in_or_app; auto. Qed.

Lemma unique_before s s' pre : headers_db s' = pre ++ headers_db s -> unique_hashes s' -> unique_hashes s.
Proof. unfold unique_hashes. intros E U. rewrite E in U. exact (uniq_app _ _ U). Qed.
Section Work.
Variable Blake2b : bytes -> bytes.
Variable BAD_BLOCKS : bytes -> bool.
Variable env : Environment.
Variable pow_keys : BlockHeader -> sip.
Variable genesis : BlockHeader.
Notation Inv := (Inv env genesis).

Lemma tip_in s hs : Inv s hs -> exists t, last hs genesis = t /\ last (best s) [] = BlockHeader_GetHash t /\ In (entry t) (headers_db s).
Proof.
  intros I. exists (last hs genesis). split; [reflexivity|]. pose proof (i_best _ _ _ _ I) as B.
  assert (NE : hs <> []) by (intros ->; discriminate (i_genesis _ _ _ _ I)).
  rewrite <- B. rewrite (app_removelast_last genesis NE) at 1. rewrite map_app. cbn. rewrite last_last. split; [reflexivity|].
  apply (i_in _ _ _ _ I). rewrite (app_removelast_last genesis NE) at 2. apply in_or_app. cbn. auto.
Qed.
Lemma work_tip s hs : Inv s hs -> unique_hashes s -> work s = h_totalDifficulty (last hs genesis).
Proof.
  intros I U. destruct (tip_in s hs I) as (t & -> & T1 & T2). unfold work, stored. rewrite T1.
  rewrite (find_unique _ _ t U T2). reflexivity.
Qed.
Lemma accepted_grows s s' new moved : accepted Blake2b env s s' new moved -> exists pre, headers_db s' = pre ++ headers_db s.
Proof. intros A. exists (rev (map entry new)). apply (a_db _ _ _ _ _ _ A). Qed.
Lemma accepted_stay s s' hs new : Inv s hs -> unique_hashes s' -> accepted Blake2b env s s' new false ->
  best s' = best s /\ work s' = work s.
Proof.
  intros I U A. destruct (a_stay _ _ _ _ _ _ A eq_refl) as [B _]. split; [exact B|].
  destruct (tip_in s hs I) as (t & _ & T1 & T2). destruct (accepted_grows _ _ _ _ A) as [pre D].
  unfold work, stored. rewrite B, T1. rewrite (find_unique (headers_db s') _ t U).
  - rewrite (find_unique (headers_db s) _ t); [reflexivity| |exact T2]. exact (unique_before _ _ _ D U).
  - rewrite D. apply in_or_app. right. exact T2.
Qed.
Lemma accepted_nonempty s s' new moved : accepted Blake2b env s s' new moved -> new <> [].
Proof. intros A. destruct (a_chain _ _ _ _ _ _ A) as (p & len & f & f' & _ & _ & _ & _ & N & _). exact N. Qed.
Lemma accepted_moved s s' new : accepted Blake2b env s s' new true ->
  last (best s') [] = BlockHeader_GetHash (last new genesis) /\ work s' = h_totalDifficulty (last new genesis) /\
  stored s' (BlockHeader_GetHash (last new genesis)) = Some (last new genesis).
Proof.
  intros A. pose proof (accepted_nonempty _ _ _ _ A) as NE.
  destruct (a_chain _ _ _ _ _ _ A) as (p & len & f & f' & _ & _ & _ & _ & _ & _ & _ & M). destruct (M eq_refl) as [B _].
  assert (L : last (best s') [] = BlockHeader_GetHash (last new genesis)).
  { rewrite B. rewrite (app_removelast_last genesis NE) at 1. rewrite map_app, app_assoc. cbn. rewrite last_last. reflexivity. }
  assert (D : stored s' (BlockHeader_GetHash (last new genesis)) = Some (last new genesis)).
  { unfold stored. rewrite (a_db _ _ _ _ _ _ A). rewrite (app_removelast_last genesis NE) at 1. rewrite map_app, rev_app_distr. cbn.
    rewrite (proj2 (bytes_eqb_spec _ _) eq_refl). reflexivity. }
  split; [exact L|]. split; [|exact D]. unfold work. rewrite L, D. reflexivity.
Qed.
Lemma added_most new : forall len f p f' h, added Blake2b env len f p new f' -> env <> AUTOMATED_TESTING -> In h new ->
  h_totalDifficulty h <= h_totalDifficulty (last new genesis).
Proof.
  induction new as [|x new IH]; intros len f p f' h A He Hi; [contradiction|].
  cbn [added] in A. destruct A as (_ & _ & _ & _ & f1 & _ & A). destruct new as [|y new].
  - destruct Hi as [->|[]]. cbn. lia.
  - change (last (x :: y :: new) genesis) with (last (y :: new) genesis). destruct Hi as [->|Hi].
    + pose proof A as A'. cbn [added] in A'. destruct A' as (_ & _ & T & _). specialize (T He).
      specialize (IH _ _ _ _ y A He (or_introl eq_refl)). lia.
    + eapply IH; eauto.
Qed.
Definition most (s : cstate) : Prop := forall k h, In (k, h) (headers_db s) -> h_totalDifficulty h <= work s.
Lemma accepted_most s s' hs new moved : Inv s hs -> unique_hashes s' -> env <> AUTOMATED_TESTING -> most s ->
  accepted Blake2b env s s' new moved -> moved = negb (h_totalDifficulty (last new genesis) <=? work s) ->
  most s' /\ ((moved = true /\ work s < work s') \/ (best s' = best s /\ work s' = work s)).
Proof.
  intros I U He Mo A Em. pose proof A as A0. pose proof (a_db _ _ _ _ _ _ A) as D.
  destruct (a_chain _ _ _ _ _ _ A) as (p & len & f & f' & _ & Ad & _).
  destruct moved.
  - destruct (accepted_moved _ _ _ A) as (L & W & _). symmetry in Em. apply Bool.negb_true_iff, N.leb_gt in Em.
    split; [|left; split; [reflexivity|lia]]. intros k h Hi. rewrite D in Hi. apply in_app_or in Hi. destruct Hi as [Hi|Hi].
    + apply entries_in in Hi. destruct Hi as (x & Ex & Hx). injection Ex as -> ->. rewrite W. eapply added_most; eauto.
    + specialize (Mo _ _ Hi). lia.
  - destruct (accepted_stay _ _ _ _ I U A) as [B W]. symmetry in Em. apply Bool.negb_false_iff, N.leb_le in Em.
    split; [|right; auto]. intros k h Hi. rewrite W. rewrite D in Hi. apply in_app_or in Hi. destruct Hi as [Hi|Hi].
    + apply entries_in in Hi. destruct Hi as (x & Ex & Hx). injection Ex as -> ->.
      pose proof (added_most _ _ _ _ _ x Ad He Hx). lia.
    + apply (Mo _ _ Hi).
Qed.

Definition better (s s' : cstate) : Prop := work s <= work s' /\ (best s' = best s \/ work s < work s').
Lemma better_refl s : better s s.
Proof. split; [lia|auto]. Qed.
Lemma better_trans a b c : better a b -> better b c -> better a c.
Proof. intros [A1 A2] [B1 B2]. split; [lia|]. destruct A2 as [A2|A2]; [|right; lia]. destruct B2 as [B2|B2]; [left; congruence|right; lia]. Qed.
Lemma same_better s s' : same_stores s s' -> better s s' /\ (most s -> most s') /\ headers_db s' = headers_db s.
Proof.
  intros (S1 & S2 & S3 & S4 & S5).
  assert (Eb : best s' = best s) by (unfold best; rewrite S2; reflexivity).
  assert (Ed : headers_db s' = headers_db s) by (unfold headers_db; rewrite S3; reflexivity).
  assert (Ew : work s' = work s) by (unfold work, stored; rewrite Eb, Ed; reflexivity).
  split; [split; [lia|auto]|]. split; [|exact Ed]. unfold most. rewrite Ed, Ew. auto.
Qed.
Lemma progress_grows s s' : progress Blake2b env genesis s s' -> exists pre, headers_db s' = pre ++ headers_db s.
Proof.
  induction 1 as [s|s s1 s' hs C F O P [pre IH]|s s1 s' S O P [pre IH]].
  - exists []. reflexivity.
  - destruct C as [N|new R Nn Sf A]; [contradiction|]. destruct (accepted_grows _ _ _ _ A) as [pre1 E]. exists (pre ++ pre1).
    rewrite IH, E, app_assoc. reflexivity.
  - exists pre. destruct (same_better _ _ S) as (_ & _ & E). rewrite IH, E. reflexivity.
Qed.
Lemma progress_most s s' : progress Blake2b env genesis s s' -> env <> AUTOMATED_TESTING -> unique_hashes s' -> forall hs, Inv s hs -> most s ->
  most s' /\ better s s'.
Proof.
  intros P He U. induction P as [s|s s1 s' new0 C F O P IH|s s1 s' S O P IH]; intros hs I Mo.
  - split; [exact Mo|apply better_refl].
  - destruct C as [N|new R Nn Sf A]; [contradiction|].
    assert (Sn : Forall small new). { destruct Sf as [pre ->]. apply Forall_app in F. apply F. }
    destruct (accepted_inv Blake2b env pow_keys genesis s s1 hs new _ I A Sn) as (len & p & f & f' & I1 & _).
    { rewrite O. apply I. } { rewrite O. apply (i_osmall _ _ _ _ I). }
    destruct (progress_grows _ _ P) as [pre E].
    assert (U1 : unique_hashes s1). { exact (unique_before _ _ _ E U). }
    destruct (accepted_most _ _ _ _ _ I U1 He Mo A eq_refl) as [M1 W1].
    destruct (IH U _ I1 M1) as [M2 B2]. split; [exact M2|]. eapply better_trans; [|exact B2].
    destruct W1 as [[_ W1]|[W1 W2]]; split; auto; lia.
  - destruct (same_better _ _ S) as (B & M & _).
    destruct (IH U hs) as [M2 B2]; auto.
    { apply (same_inv env genesis s); [exact I|exact S|rewrite O; apply I|rewrite O; apply (i_osmall _ _ _ _ I)]. }
    split; [exact M2|]. eapply better_trans; eauto.
Qed.

(** One header. *)
Lemma single_work fuel now h s r s' hs : Inv s hs -> small h -> env <> AUTOMATED_TESTING -> unique_hashes s' ->
  ProcessSingleHeader Blake2b BAD_BLOCKS env pow_keys fuel now h s = Some (r, s') ->
  (r <> Ret SUCCESS /\ same_stores s s') \/
  (r = Ret SUCCESS /\ In (entry h) (headers_db s') /\
    ((work s < h_totalDifficulty h /\ last (best s') [] = BlockHeader_GetHash h /\ work s' = h_totalDifficulty h) \/
     (h_totalDifficulty h <= work s /\ best s' = best s /\ work s' = work s))).
Proof.
  intros I Sh He U E. destruct (single_changes _ _ _ _ _ _ _ _ _ _ _ _ I Sh E) as [N S|R A L|new t R A F P O [pre X]].
  - left. auto.
  - right. split; [exact R|]. split; [rewrite (a_db _ _ _ _ _ _ A); left; reflexivity|]. left.
    destruct (accepted_moved _ _ _ A) as (A1 & A2 & A3). cbn [last] in A1, A2. split; [|split; assumption].
    destruct (a_chain _ _ _ _ _ _ A) as (p & len & f & f' & D & Ad & _). rewrite L in D.
    cbn [added] in Ad. destruct Ad as (_ & _ & T & _). specialize (T He). unfold work, stored. change (last (best s) []) with (tip_hash (best s)). rewrite D. exact T.
  - right. split; [exact R|]. assert (La : last new genesis = h) by (rewrite X; apply last_last). split.
    { rewrite (a_db _ _ _ _ _ _ A). apply in_or_app. left. apply entries_in. exists h. split; [reflexivity|]. rewrite X. apply in_or_app. cbn. auto. }
    destruct (h_totalDifficulty h <=? work s) eqn:T; cbn [negb] in A.
    + apply N.leb_le in T. right. split; [exact T|]. eapply accepted_stay; eauto.
    + apply N.leb_gt in T. left. destruct (accepted_moved _ _ _ A) as (A1 & A2 & A3). rewrite La in *. auto.
Qed.
Lemma single_most fuel now h s r s' hs : Inv s hs -> small h -> env <> AUTOMATED_TESTING -> unique_hashes s' -> most s ->
  ProcessSingleHeader Blake2b BAD_BLOCKS env pow_keys fuel now h s = Some (r, s') -> most s' /\ better s s'.
Proof.
  intros I Sh He U Mo E. pose proof (single_work _ _ _ _ _ _ _ I Sh He U E) as W.
  destruct (single_changes _ _ _ _ _ _ _ _ _ _ _ _ I Sh E) as [N S|R A L|new t R A F P O [pre X]].
  - destruct (same_better _ _ S) as (B & M & _). auto.
  - destruct W as [[W _]|(_ & _ & W)]; [contradiction|].
    destruct (accepted_most _ _ _ _ _ I U He Mo A) as [M2 W2].
    + cbn [last]. destruct W as [(W & _)|(W & W3 & _)].
      * symmetry. apply Bool.negb_true_iff. apply N.leb_gt, W.
      * exfalso. destruct (a_chain _ _ _ _ _ _ A) as (p & len & f & f' & D & Ad & _). rewrite L in D.
        cbn [added] in Ad. destruct Ad as (_ & _ & T & _). specialize (T He). unfold work, stored in W.
        change (last (best s) []) with (tip_hash (best s)) in W. rewrite D in W. lia.
    + split; [exact M2|]. destruct W2 as [[_ W2]|[W2 W3]]; split; auto; lia.
  - assert (La : last new genesis = h) by (rewrite X; apply last_last).
    destruct (accepted_most _ _ _ _ _ I U He Mo A) as [M2 W2]; [rewrite La; reflexivity|].
    split; [exact M2|]. destruct W2 as [[_ W2]|[W2 W3]]; split; auto; lia.
Qed.
Lemma single_grows fuel now h s r s' hs : Inv s hs -> small h ->
  ProcessSingleHeader Blake2b BAD_BLOCKS env pow_keys fuel now h s = Some (r, s') -> exists pre, headers_db s' = pre ++ headers_db s.
Proof.
  intros I Sh E. destruct (single_changes _ _ _ _ _ _ _ _ _ _ _ _ I Sh E) as [N S|R A L|new t R A F P O [pre X]].
  - exists []. apply (same_better _ _ S).
  - eapply accepted_grows; eauto.
  - eapply accepted_grows; eauto.
Qed.
Lemma handle_grows fuel e s r s' hs : Inv s hs -> small_event e ->
  handle Blake2b BAD_BLOCKS env pow_keys fuel genesis e s = Some (r, s') -> exists pre, headers_db s' = pre ++ headers_db s.
Proof.
  intros I Se E. destruct e as [now h|now l|]; cbn [handle] in E.
  - inversion Se; subst. eapply single_grows; eauto.
  - apply some_inj in E. apply progress_grows. eapply sync_progress; eauto. apply I.
  - destruct (Create Blake2b genesis s) as [[[]| |] s1] eqn:C; try discriminate. injection E as <- <-.
    destruct (create_shape _ _ _ _ _ _ I C) as (_ & _ & _ & [(D & _)|(D & _)]); rewrite D; [exists []; reflexivity|exists [entry genesis]; reflexivity].
Qed.
Lemma handle_most fuel e s r s' hs : Inv s hs -> small genesis -> small_event e -> env <> AUTOMATED_TESTING -> unique_hashes s' -> most s ->
  handle Blake2b BAD_BLOCKS env pow_keys fuel genesis e s = Some (r, s') -> most s' /\ better s s'.
Proof.
  intros I Sg Se He U Mo E. destruct e as [now h|now l|]; cbn [handle] in E.
  - inversion Se; subst. eapply single_most; eauto.
  - apply some_inj in E. eapply progress_most; eauto. eapply sync_progress; eauto. apply I.
  - destruct (Create Blake2b genesis s) as [[[]| |] s1] eqn:C; try discriminate. injection E as <- <-.
    pose proof (create_inv Blake2b BAD_BLOCKS env pow_keys genesis _ _ _ I Sg C) as I'. destruct (create_shape _ _ _ _ _ _ I C) as (_ & B & _ & D).
    assert (Us : unique_hashes s). { destruct D as [(D & _)|(D & _)]; [exact (unique_before _ _ [] D U)|exact (unique_before _ _ [_] D U)]. }
    assert (W : work s1 = work s). { rewrite (work_tip _ _ I' U), (work_tip _ _ I Us). reflexivity. }
    split; [|split; [lia|auto]]. intros k h Hi. rewrite W. destruct D as [(D & _)|(D & _)]; rewrite D in Hi; [apply (Mo _ _ Hi)|].
    destruct Hi as [Ex|Hi]; [|apply (Mo _ _ Hi)]. injection Ex as <- <-. apply (Mo (BlockHeader_GetHash genesis)). apply (i_in _ _ _ _ I).
    pose proof (i_genesis _ _ _ _ I) as G. destruct hs; [discriminate|]. injection G as ->. left. reflexivity.
Qed.
Lemma run_most fuel es : forall s rs s' hs, Inv s hs -> small genesis -> Forall small_event es -> env <> AUTOMATED_TESTING ->
  handle_all Blake2b BAD_BLOCKS env pow_keys fuel genesis es s = Some (rs, s') ->
  (exists pre, headers_db s' = pre ++ headers_db s) /\
  (unique_hashes s' -> most s -> most s' /\ better s s').
Proof.
  induction es as [|e es IH]; intros s rs s' hs I Sg Se He E; cbn [handle_all] in E.
  - injection E as _ <-. split; [exists []; reflexivity|]. intros _ Mo. split; [exact Mo|apply better_refl].
  - inversion Se; subst. destruct (handle _ _ _ _ _ _ e s) as [[r1 s1]|] eqn:H; [|discriminate].
    destruct (handle_inv _ _ _ _ _ _ _ _ _ _ _ I Sg H1 H) as [hs1 I1].
    destruct (handle_grows _ _ _ _ _ _ I H1 H) as [pre1 D1].
    assert (R : exists rs2, handle_all Blake2b BAD_BLOCKS env pow_keys fuel genesis es s1 = Some (rs2, s')).
    { destruct r1; [| |discriminate]; destruct (handle_all _ _ _ _ _ _ es s1) as [[rs2 s2]|]; try discriminate; injection E as _ <-; eauto. }
    destruct R as [rs2 R]. destruct (IH _ _ _ _ I1 Sg H2 He R) as [[pre D] M]. split.
    + exists (pre ++ pre1). rewrite D, D1, app_assoc. reflexivity.
    + intros U Mo. assert (U1 : unique_hashes s1). { exact (unique_before _ _ _ D U). }
      destruct (handle_most _ _ _ _ _ _ I Sg H1 He U1 Mo H) as [M1 B1]. destruct (M U M1) as [M2 B2]. split; [exact M2|].
      eapply better_trans; eauto.
Qed.
Lemma started_most : h_height genesis = 0 -> most (started Blake2b genesis).
Proof.
  intros H0 k h Hi.
  assert (Sg : small genesis) by (unfold small; lia). pose proof (started_inv Blake2b env genesis Sg H0) as I.
  change (headers_db (started Blake2b genesis)) with [entry genesis] in Hi. destruct Hi as [Ex|[]]. injection Ex as <- <-.
  assert (U : unique_hashes (started Blake2b genesis)).
  { intros k a b Ha Hb. change (headers_db (started Blake2b genesis)) with [entry genesis] in Ha, Hb.
    destruct Ha as [Ha|[]]. destruct Hb as [Hb|[]]. congruence. }
  rewrite (work_tip _ _ I U). cbn. lia.
Qed.
End Work.
