(** Proofs for C08. *)
From Verif Require Import Base Bytes FileModel FileSpec.
Local Open Scope N_scope.

Lemma nlen_app {A} (a b : list A) : nlen (a ++ b) = nlen a + nlen b.
Proof. unfold nlen. rewrite app_length. lia. Qed.
Lemma nlen_firstn {A} n (l : list A) : n <= nlen l -> nlen (firstn (N.to_nat n) l) = n.
Proof. unfold nlen. intros. rewrite firstn_length. lia. Qed.

Definition op_of (o : sop) : fop :=
  match o with
  | SAdd r => FAdd r | SRewind n => FRewind n | SCommit => FCommit | SRollback => FRollback
  | SGet i => FGet i | SSize => FSize
  end.
Definition res_of (r : sres) : fres :=
  match r with SDone => RDone | SError => RThrow | SRecord b => RBytes b | SCount n => RNum n end.

Lemma spec_step_det s op r s1 r' s2 : spec_step s op r s1 -> spec_step s op r' s2 -> r = r' /\ s1 = s2.
Proof. intros H G; inversion H; subst; inversion G; subst; auto; try lia; try (split; congruence). Qed.

Section P.
Variable NUM : N.
Hypothesis NUM_pos : 0 < NUM.

Definition recs (l : list bytes) : Prop := Forall (fun r => nlen r = NUM) l.
Lemma concat_len l : recs l -> nlen (concat l) = NUM * nlen l.
Proof.
  induction 1 as [|r l Hr Hl IH]; [unfold nlen; cbn; lia|].
  cbn [concat]. rewrite nlen_app, IH, Hr. unfold nlen; cbn [length]. lia.
Qed.
Lemma firstn_concat l k : recs l -> firstn (N.to_nat (k * NUM)) (concat l) = concat (firstn (N.to_nat k) l).
Proof.
  intros H. destruct (N.le_gt_cases (nlen l) k) as [G|G].
  - rewrite !firstn_all2; [reflexivity| |].
    + unfold nlen in G. lia.
    + pose proof (concat_len l H). unfold nlen in *.
      assert (NUM * N.of_nat (length l) <= NUM * k) by (apply N.mul_le_mono_l; assumption). lia.
  - rewrite <- (firstn_skipn (N.to_nat k) l) at 1. rewrite concat_app.
    assert (HF : recs (firstn (N.to_nat k) l)).
    { unfold recs in *. rewrite Forall_forall in *. intros x Hx. apply H. rewrite <- (firstn_skipn (N.to_nat k) l). apply in_or_app; auto. }
    pose proof (concat_len _ HF) as C. rewrite nlen_firstn in C by lia.
    rewrite firstn_app. replace (N.to_nat (k * NUM)) with (length (concat (firstn (N.to_nat k) l))) by (unfold nlen in C; lia).
    rewrite firstn_all, Nat.sub_diag. cbn [firstn]. apply app_nil_r.
Qed.
Lemma recs_firstn k l : recs l -> recs (firstn k l).
Proof. unfold recs. rewrite !Forall_forall. intros H x Hx. apply H. rewrite <- (firstn_skipn k l). apply in_or_app; auto. Qed.
Lemma skipn_concat l k : recs l -> k <= nlen l -> skipn (N.to_nat (k * NUM)) (concat l) = concat (skipn (N.to_nat k) l).
Proof.
  intros H G. rewrite <- (firstn_skipn (N.to_nat k) l) at 1. rewrite concat_app.
  pose proof (concat_len _ (recs_firstn (N.to_nat k) l H)) as C. rewrite nlen_firstn in C by lia.
  rewrite skipn_app. replace (N.to_nat (k * NUM)) with (length (concat (firstn (N.to_nat k) l))) by (unfold nlen in C; lia).
  rewrite skipn_all, Nat.sub_diag. reflexivity.
Qed.
Lemma slice_concat l i r : recs l -> nth_error l (N.to_nat i) = Some r -> slice (concat l) (i * NUM) NUM = r.
Proof.
  intros H E. assert (G : i < nlen l). { unfold nlen. assert (N.to_nat i < length l)%nat by (apply nth_error_Some; congruence). lia. }
  unfold slice. rewrite skipn_concat by (auto; lia).
  apply nth_error_split in E. destruct E as (l1 & l2 & -> & E).
  rewrite skipn_app, E, Nat.sub_diag, skipn_all2 by lia. cbn [skipn app concat].
  assert (nlen r = NUM) by (unfold recs in H; rewrite Forall_forall in H; apply H, in_or_app; right; left; reflexivity).
  rewrite firstn_app, firstn_all2 by (unfold nlen in *; lia).
  replace (N.to_nat NUM - length r)%nat with O by (unfold nlen in *; lia). cbn [firstn]. apply app_nil_r.
Qed.

(** Invariant: the disk holds the committed records; the current records are a prefix of the
    committed ones followed by the buffered ones. *)
Record Inv (d : dfile) (s : fspec) : Prop := {
  iC : recs (committed s);
  iU : recs (current s);
  iD : disk (m_pFile d) = concat (committed s);
  iS : m_fileSize (m_pFile d) = nlen (committed s) * NUM;
  iSplit : exists k buf, k <= nlen (committed s) /\ m_bufferIndex (m_pFile d) = k * NUM /\
             m_buffer (m_pFile d) = concat buf /\ current s = firstn (N.to_nat k) (committed s) ++ buf;
  iDirty : m_dirty d = false -> m_bufferIndex (m_pFile d) = m_fileSize (m_pFile d) /\ m_buffer (m_pFile d) = []
}.

Lemma inv_load l : recs l -> Inv (DF_Load (concat l)) (mkF l l).
Proof.
  intros H. constructor; cbn; auto.
  - rewrite concat_len by assumption. lia.
  - exists (nlen l), []. rewrite concat_len by assumption. repeat split; try lia.
    cbn [app]. rewrite app_nil_r, firstn_all2; [reflexivity|unfold nlen; lia].
Qed.

Lemma recs_app_inv a b : recs (a ++ b) -> recs a /\ recs b.
Proof. unfold recs. apply Forall_app. Qed.

Lemma mulk a b : a * NUM = b * NUM -> a = b.
Proof. intros. apply N.mul_cancel_r with NUM; lia. Qed.
Lemma mullt a b : a * NUM < b * NUM <-> a < b.
Proof. symmetry. apply N.mul_lt_mono_pos_r. assumption. Qed.
Lemma mulle a b : a * NUM <= b * NUM <-> a <= b.
Proof. symmetry. apply N.mul_le_mono_pos_r. assumption. Qed.
Lemma mullt1 a b : a * NUM < b * NUM -> a < b. Proof. apply mullt. Qed.
Lemma mulle1 a b : a * NUM <= b * NUM -> a <= b. Proof. apply mulle. Qed.
Lemma concat_nil_recs b : recs b -> nlen (concat b) = 0 -> b = [].
Proof. intros H E. rewrite concat_len in E by assumption. destruct b; [reflexivity|]. unfold nlen in E; cbn [length] in E. apply N.eq_mul_0 in E. lia. Qed.

Lemma step_ok d s op r s' : Inv d s -> op_ok NUM op -> spec_step s op r s' ->
  nlen (current s') * NUM < W64 -> nlen (current s) * NUM < W64 ->
  exists d', DF_step NUM d (op_of op) = (res_of r, d') /\ Inv d' s'.
Proof.
  intros I Hop Hst Hsz Hsz0. destruct I as [iC0 iU0 iD0 iS0 (k & buf & Hk & HbI & HbB & Hcur) iDirty0].
  assert (Rbuf : recs buf) by (rewrite Hcur in iU0; apply recs_app_inv in iU0; tauto).
  assert (Lcur : nlen (current s) = k + nlen buf) by (rewrite Hcur, nlen_app, nlen_firstn by lia; reflexivity).
  pose proof (concat_len buf Rbuf) as Lb.
  destruct d as [[dk bI fS bB] dirty]; cbn [m_pFile m_dirty disk m_bufferIndex m_fileSize m_buffer] in *. subst dk bI fS bB.
  inversion Hst; subst; cbn [op_of res_of op_ok] in *; unfold DF_step.
  - (* add *)
    eexists. split; [reflexivity|]. constructor; cbn; auto; try discriminate.
    + unfold recs. apply Forall_app. split; [assumption|]. constructor; [exact Hop|constructor].
    + exists k, (buf ++ [r0]). rewrite Hcur, concat_app, app_assoc. cbn [concat]. rewrite app_nil_r. auto.
  - (* rewind *)
    unfold DF_Rewind, AOF_Rewind. cbn [m_pFile disk m_bufferIndex m_fileSize m_buffer].
    rewrite mul64_small by assumption. rewrite Lb.
    change (n <= nlen (current s)) in H. rewrite Lcur in H.
    destruct (k * NUM + NUM * nlen buf <? n * NUM) eqn:E1.
    { exfalso. apply N.ltb_lt in E1. replace (k * NUM + NUM * nlen buf) with ((k + nlen buf) * NUM) in E1 by ring.
      apply mullt1 in E1.  lia. }
    destruct (n * NUM <=? k * NUM) eqn:E2.
    + apply N.leb_le in E2. apply mulle1 in E2. eexists. split; [reflexivity|]. constructor; cbn; auto; try discriminate.
      * apply recs_firstn; assumption.
      * exists n, []. rewrite Hcur, app_nil_r. repeat split; try lia.
        rewrite firstn_app, firstn_firstn, Nat.min_l by lia.
        replace (N.to_nat n - length (firstn (N.to_nat k) (committed s)))%nat with O.
        2:{ rewrite firstn_length. unfold nlen in Hk. lia. }
        cbn [firstn]. apply app_nil_r.
    + apply N.leb_gt in E2. apply mullt1 in E2. eexists. split; [reflexivity|]. constructor; cbn; auto; try discriminate.
      * apply recs_firstn; assumption.
      * exists k, (firstn (N.to_nat (n - k)) buf). rewrite Hcur. repeat split; auto.
        -- rewrite <- firstn_concat by assumption. rewrite N.mul_sub_distr_r. reflexivity.
        -- rewrite firstn_app. rewrite (firstn_all2 (n := N.to_nat n)) by (rewrite firstn_length; unfold nlen in Hk; lia).
           f_equal. f_equal. rewrite firstn_length. unfold nlen in Hk. lia.
  - (* rewind too far *)
    unfold DF_Rewind, AOF_Rewind. cbn [m_pFile disk m_bufferIndex m_fileSize m_buffer].
    rewrite mul64_small by assumption. rewrite Lb.
    change (n > nlen (current s')) in H. rewrite Lcur in H.
    destruct (k * NUM + NUM * nlen buf <? n * NUM) eqn:E1.
    2:{ exfalso. apply N.ltb_ge in E1. replace (k * NUM + NUM * nlen buf) with ((k + nlen buf) * NUM) in E1 by ring.
      apply mulle1 in E1. lia. }
    eexists. split; [reflexivity|]. constructor; cbn; auto; try discriminate.
    exists k, buf. auto.
  - (* commit *)
    unfold DF_Commit; cbn [m_dirty m_pFile].
    assert (Done : forall D dd, dd = mkDfile (mkAof D (nlen (current s) * NUM) (nlen (current s) * NUM) []) false ->
       D = concat (current s) -> Inv dd (mkF (current s) (current s))).
    { intros D dd -> ->. constructor; cbn; auto.
      exists (nlen (current s)), []. repeat split; try lia. rewrite app_nil_r, firstn_all2; [reflexivity|unfold nlen; lia]. }
    destruct dirty.
    + unfold AOF_Flush; cbn [m_pFile disk m_bufferIndex m_fileSize m_buffer].
      destruct ((nlen (committed s) * NUM =? k * NUM) && (nlen (concat buf) =? 0)) eqn:E1.
      * apply andb_true_iff in E1. destruct E1 as [E1 E2]. apply N.eqb_eq in E1. apply N.eqb_eq in E2.
        apply mulk in E1. apply concat_nil_recs in E2; [|assumption]. subst buf k.
        rewrite app_nil_r, firstn_all2 in Hcur by (unfold nlen; lia).
        eexists. split; [reflexivity|]. rewrite <- Hcur. eapply Done; [reflexivity|reflexivity].
      * destruct (nlen (committed s) * NUM <? k * NUM) eqn:E2.
        { exfalso. apply N.ltb_lt in E2. apply mullt1 in E2. lia. }
        eexists. split; [reflexivity|]. rewrite Lb. replace (k * NUM + NUM * nlen buf) with (nlen (current s) * NUM) by (rewrite Lcur; ring).
        eapply Done; [reflexivity|].
        unfold Mapped_Write, truncate. rewrite concat_len by assumption.
        assert (k * NUM <= NUM * nlen (committed s)) by (rewrite (N.mul_comm NUM); apply mulle; assumption).
        destruct (k * NUM <=? NUM * nlen (committed s)) eqn:E3; [|lia].
        rewrite firstn_concat by assumption. rewrite Hcur, concat_app. reflexivity.
    + destruct (iDirty0 eq_refl) as [Ek Eb]. apply mulk in Ek.
      assert (buf = []). { apply concat_nil_recs; [assumption|]. rewrite Eb. reflexivity. } subst buf k.
      rewrite app_nil_r, firstn_all2 in Hcur by (unfold nlen; lia).
      eexists. split; [reflexivity|]. rewrite <- Hcur. eapply Done; reflexivity.
  - (* rollback *)
    assert (Done : Inv (mkDfile (mkAof (concat (committed s)) (nlen (committed s) * NUM) (nlen (committed s) * NUM) []) false) (mkF (committed s) (committed s))).
    { constructor; cbn; auto. exists (nlen (committed s)), []. repeat split; try lia.
      rewrite app_nil_r, firstn_all2; [reflexivity|unfold nlen; lia]. }
    eexists. split; [reflexivity|]. unfold DF_Rollback; cbn [m_dirty m_pFile]. destruct dirty.
    + unfold AOF_Discard; cbn. exact Done.
    + destruct (iDirty0 eq_refl) as [Ek Eb]. rewrite Ek, Eb. exact Done.
  - (* get *)
    assert (G : i < nlen (current s')). { unfold nlen. assert (N.to_nat i < length (current s'))%nat by (apply nth_error_Some; congruence). lia. }
    rewrite Lcur in G.
    unfold DF_GetDataAt, AOF_Read; cbn [m_pFile disk m_bufferIndex m_fileSize m_buffer].
    rewrite mul64_small by assumption. rewrite Lb, concat_len by assumption.
    assert (Done : Inv (mkDfile (mkAof (concat (committed s')) (k * NUM) (nlen (committed s') * NUM) (concat buf)) dirty) s').
    { constructor; cbn; auto. exists k, buf; auto. }
    destruct (i * NUM <? k * NUM) eqn:E1.
    + apply N.ltb_lt in E1. apply mullt1 in E1.
      assert ((i + 1) * NUM <= nlen (committed s') * NUM) by (apply mulle; lia).
      destruct (i * NUM + NUM <=? NUM * nlen (committed s')) eqn:E2; [|lia].
      eexists. split; [|exact Done]. f_equal. f_equal. apply slice_concat; [assumption|].
      rewrite <- H. rewrite Hcur. rewrite nth_error_app1 by (rewrite firstn_length; unfold nlen in *; lia).
      clear - E1. revert E1. generalize (committed s'). intros l E1.
      assert (N.to_nat i < N.to_nat k)%nat by lia. clear E1.
      revert H. generalize (N.to_nat i) (N.to_nat k). clear. intros a b. revert b l. induction a; intros [|b] [|x l] H; cbn; try lia; auto. apply IHa. lia.
    + apply N.ltb_ge in E1. apply mulle1 in E1.
      assert ((i - k + 1) * NUM <= nlen buf * NUM) by (apply mulle; lia).
      rewrite <- N.mul_sub_distr_r.
      destruct ((i - k) * NUM + NUM <=? NUM * nlen buf) eqn:E2; [|lia].
      eexists. split; [|exact Done]. f_equal. f_equal. apply slice_concat; [assumption|].
      rewrite <- H, Hcur. rewrite nth_error_app2 by (rewrite firstn_length; unfold nlen in *; lia).
      f_equal. rewrite firstn_length. unfold nlen in *. lia.
  - (* size *)
    assert (Done : Inv (mkDfile (mkAof (concat (committed s')) (k * NUM) (nlen (committed s') * NUM) (concat buf)) dirty) s').
    { constructor; cbn; auto. exists k, buf; auto. }
    eexists. split; [|exact Done].
    unfold DF_GetSize, AOF_GetSize; cbn [m_pFile m_bufferIndex m_buffer]. rewrite Lb.
    change (N.of_nat (length (current s'))) with (nlen (current s')). rewrite Lcur.
    replace (k * NUM + NUM * nlen buf) with ((k + nlen buf) * NUM) by ring. rewrite N.div_mul by lia. reflexivity.
Qed.

Lemma small_head s ops : small_run NUM s ops -> nlen (current s) * NUM < W64.
Proof. inversion 1; assumption. Qed.

Lemma run_ok ops : forall d s rs s', Inv d s -> Forall (op_ok NUM) ops -> spec_run s ops rs s' -> small_run NUM s ops ->
  exists d', DF_run NUM d (map op_of ops) = (map res_of rs, d') /\ Inv d' s'.
Proof.
  induction ops as [|op ops IH]; intros d s rs s' I Hops Hrun Hsm.
  { inversion Hrun; subst. exists d. split; [reflexivity|assumption]. }
  inversion Hrun; subst. inversion Hsm; subst. inversion Hops; subst.
  match goal with A : spec_step s op ?r1 ?x, B : spec_step s op ?r2 ?y |- _ =>
    destruct (spec_step_det _ _ _ _ _ _ A B) as [-> ->]; clear A; rename B into Hst end.
  match goal with A : small_run NUM ?y ops, B : op_ok NUM op, C : Forall _ ops, D : spec_run ?y ops rs0 s', F : N.of_nat (length (current s)) * NUM < _ |- _ =>
    destruct (step_ok d s op _ y I B Hst (small_head _ _ A) F) as (d1 & E1 & I1);
    destruct (IH d1 y rs0 s' I1 C D A) as (d2 & E2 & I2) end.
  exists d2. split; [|assumption]. cbn [map DF_run]. rewrite E1, E2. reflexivity.
Qed.
End P.
