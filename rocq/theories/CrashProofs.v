(** Proofs for C22: interleavings, and what each piece of the chain state looks like after any prefix of the writes. *)
From Verif Require Import Base Bytes MMRIndexModel FileModel FileProofs BitmapModel BitmapSpec BitmapProofs CrashModel CrashSpec.
Local Open Scope N_scope.

(** Interleavings. *)
Lemma il_filter {A} (f : A -> bool) ls t : interleaving ls t -> interleaving (map (filter f) ls) (filter f t).
Proof.
  induction 1 as [ls H|bef x l aft t _ IH].
  - constructor. apply Forall_map. eapply Forall_impl; [|exact H]. intros a ->. reflexivity.
  - rewrite map_app in *. cbn [map filter] in *. destruct (f x); [|exact IH]. apply il_step. exact IH.
Qed.
Lemma il_one {A} (ls : list (list A)) t : interleaving ls t -> forall bef a aft, ls = bef ++ a :: aft ->
  Forall (fun l => l = []) bef -> Forall (fun l => l = []) aft -> t = a.
Proof.
  induction 1 as [ls H|bef x l aft t _ IH]; intros b0 a0 c0 E Hb Hc.
  - subst ls. apply Forall_app in H. destruct H as [_ H]. inversion H; subst. reflexivity.
  - revert b0 a0 c0 E Hb Hc. induction bef as [|b bef IHb] in IH |- *; intros b0 a0 c0 E Hb Hc.
    + destruct b0 as [|y b0]; cbn [app] in E.
      * injection E as <- <-. f_equal. eapply (IH []); [reflexivity|constructor|assumption].
      * injection E as <- _. inversion Hb; discriminate.
    + destruct b0 as [|y b0]; cbn [app] in E.
      * injection E as E1 E2. subst c0. apply Forall_app in Hc. destruct Hc as [_ Hc]. inversion Hc; discriminate.
      * injection E as <- E. inversion Hb as [|? ? Hy Hb']; subst. eapply IHb; [|exact E|exact Hb'|exact Hc].
        intros b1 a1 c1 E1 H1 H2. eapply (IH ([] :: b1)); [cbn; f_equal; exact E1|constructor; auto|exact H2].
Qed.
Lemma il_exists {A} (ls : list (list A)) : interleaving ls (concat ls).
Proof.
  assert (G : forall bef, Forall (fun l => l = []) bef -> interleaving (bef ++ ls) (concat ls)).
  { induction ls as [|l ls IH]; intros bef H.
    - rewrite app_nil_r. constructor. exact H.
    - cbn [concat]. induction l as [|x l IHl].
      + cbn [app]. replace (bef ++ [] :: ls) with ((bef ++ [[]]) ++ ls) by (rewrite <- app_assoc; reflexivity).
        apply IH. apply Forall_app; auto.
      + cbn [app]. constructor. exact IHl. }
  apply (G []). constructor.
Qed.
Lemma filter_firstn {A} (f : A -> bool) k (l : list A) : exists m, filter f (firstn k l) = firstn m (filter f l).
Proof.
  revert k. induction l as [|x l IH]; intros k.
  - exists O. rewrite firstn_nil. reflexivity.
  - destruct k as [|k]; [exists O; reflexivity|]. cbn [firstn filter]. destruct (IH k) as (m & E).
    destruct (f x); [exists (S m); cbn [firstn]; rewrite E; reflexivity|exists m; exact E].
Qed.

Lemma dstore_eqb_eq a b : dstore_eqb a b = true <-> a = b.
Proof. split; [destruct a, b; cbn; congruence|intros ->; destruct b; reflexivity]. Qed.
Lemma lstore_eqb_eq a b : lstore_eqb a b = true <-> a = b.
Proof. split; [destruct a, b; cbn; congruence|intros ->; destruct b; reflexivity]. Qed.

(** Every call keeps the files consistent. *)
Definition okfile (d : dfile) : Prop :=
  m_fileSize (m_pFile d) = nlen (disk (m_pFile d)) /\ m_bufferIndex (m_pFile d) <= m_fileSize (m_pFile d) /\
  (m_dirty d = false -> m_bufferIndex (m_pFile d) = m_fileSize (m_pFile d) /\ m_buffer (m_pFile d) = []).
Lemma okfile_load c : okfile (DF_Load c).
Proof. repeat split; cbn; lia. Qed.
Lemma okfile_step n d op : okfile d -> okfile (snd (DF_step n d op)).
Proof.
  destruct d as [[dk bi fs bf] dirty]. intros (A & B & C). cbn [m_pFile disk m_fileSize m_bufferIndex m_dirty m_buffer] in *.
  destruct op; cbn [DF_step].
  - repeat split; cbn; try assumption; discriminate.
  - unfold DF_Rewind, AOF_Rewind. cbn [m_pFile m_bufferIndex m_buffer disk m_fileSize].
    destruct (_ <? _); [repeat split; cbn; try assumption; discriminate|].
    destruct (_ <=? _) eqn:E; cbn; repeat split; cbn; try assumption; try discriminate. lia.
  - unfold DF_Commit, AOF_Flush. cbn [m_pFile m_dirty m_bufferIndex m_buffer disk m_fileSize]. destruct dirty.
    + destruct ((fs =? bi) && (nlen bf =? 0)) eqn:E.
      * cbn. repeat split; cbn; try assumption; try lia. destruct bf; [reflexivity|]. unfold nlen in E; cbn in E; lia.
      * destruct (fs <? bi) eqn:E2; [repeat split; cbn; try assumption; discriminate|].
        cbn. unfold Mapped_Write, truncate. replace (bi <=? nlen dk) with true by lia.
        repeat split; cbn; try lia. rewrite nlen_app, nlen_firstn by lia. lia.
    + repeat split; cbn; try assumption; apply C; reflexivity.
  - unfold DF_Rollback, AOF_Discard. cbn. destruct dirty; repeat split; cbn; try assumption; try lia; apply C; reflexivity.
  - destruct (DF_GetDataAt _ _ _); cbn; repeat split; cbn; assumption || (apply C; assumption).
  - repeat split; cbn; assumption || (apply C; assumption).
Qed.
Lemma okfile_run n ops : forall d, okfile d -> okfile (snd (DF_run n d ops)).
Proof.
  induction ops as [|op ops IH]; intros d H; cbn [DF_run]; [assumption|].
  pose proof (okfile_step n d op H) as G. destruct (DF_step n d op) as [r d1]. cbn [snd] in G.
  specialize (IH d1 G). destruct (DF_run n d1 ops). exact IH.
Qed.
Lemma wfb_fold {A} (f : bitmapfile -> A -> bitmapfile) : (forall b a, wfb b -> wfb (f b a)) -> forall l b, wfb b -> wfb (fold_left f l b).
Proof. intros F l. induction l as [|a l IH]; intros b H; cbn [fold_left]; auto. Qed.
Lemma wfb_step b o : wfb b -> wfb (BF_step b o).
Proof.
  intros W. destruct o; cbn [BF_step].
  - apply wfb_Set; assumption.
  - apply wfb_Unset; assumption.
  - apply Rewind_ok; assumption.
  - unfold wfb. rewrite Commit_nomod. constructor.
  - constructor.
  - unfold BF_SetRoaring. apply wfb_fold; [|assumption]. intros b0 a H. destruct (IsLeaf _); [apply wfb_Set|]; assumption.
  - unfold BF_UnsetRoaring. apply wfb_fold; [|assumption]. intros b0 a H. destruct (IsLeaf _); [apply wfb_Unset|]; assumption.
Qed.

Section P.
Context {DB : Type}.
Notation session := (@session DB).
Notation storage := (@storage DB).
Notation effect := (@effect DB).
Implicit Types (ss : session) (st : storage).

Definition ok (ss : session) : Prop := (forall s, okfile (file ss s)) /\ (forall l, wfb (leafset ss l)).
Lemma reached_ok ss : reached ss -> ok ss.
Proof.
  intros [F L]. split.
  - intros s. destruct (F s) as (c & ops & ->). apply okfile_run, okfile_load.
  - intros l. destruct (L l) as (c & ops & ->). apply wfb_fold; [intros; apply wfb_step; assumption|constructor].
Qed.

(** Which piece an effect changes. *)
Definition on (p : piece) (e : effect) : bool :=
  match p, e with
  | File s, Truncate s' _ | File s, Put s' _ => dstore_eqb s s'
  | Leaves l, Patch l' _ _ => lstore_eqb l l'
  | Database, Batch _ => true
  | _, _ => false
  end.
Definition agree (p : piece) (a b : storage) : Prop :=
  match p with
  | File s => data_on_disk a s = data_on_disk b s
  | Leaves l => leaves_on_disk a l = leaves_on_disk b l
  | Database => db_on_disk a = db_on_disk b
  end.
Lemma agree_step p e a b : agree p a b -> agree p (apply_effect a e) (if on p e then apply_effect b e else b).
Proof.
  destruct p as [s|l|], e as [s' n|s' x|l' q x|d]; cbn [on agree]; intros H; cbn [apply_effect data_on_disk leaves_on_disk db_on_disk]; try assumption.
  - destruct (dstore_eqb s s') eqn:E; cbn [data_on_disk apply_effect]; rewrite ?E; congruence.
  - destruct (dstore_eqb s s') eqn:E; cbn [data_on_disk apply_effect]; rewrite ?E; congruence.
  - destruct (lstore_eqb l l') eqn:E; cbn [leaves_on_disk apply_effect]; rewrite ?E; congruence.
  - reflexivity.
Qed.
Lemma agree_run p es : forall a b, agree p a b -> agree p (apply_effects es a) (apply_effects (filter (on p) es) b).
Proof.
  unfold apply_effects. induction es as [|e es IH]; intros a b H; cbn [fold_left filter]; [assumption|].
  apply (agree_step p e) in H. destruct (on p e); cbn [fold_left]; apply IH; assumption.
Qed.
Lemma agree_refl p a : agree p a a.
Proof. destruct p; reflexivity. Qed.

(** The effects of a commit on one piece. *)
Definition own (ss : session) (p : piece) : list effect :=
  match p with File s => file_effects ss s | Leaves l => leaf_effects ss l | Database => db_effects ss end.
Lemma filter_none {A} (f : A -> bool) l : (forall x, In x l -> f x = false) -> filter f l = [].
Proof. induction l as [|x l IH]; intros H; [reflexivity|]. cbn [filter]. rewrite (H x (or_introl eq_refl)). apply IH. intros; apply H; right; assumption. Qed.
Lemma filter_all {A} (f : A -> bool) l : (forall x, In x l -> f x = true) -> filter f l = l.
Proof. induction l as [|x l IH]; intros H; [reflexivity|]. cbn [filter]. rewrite (H x (or_introl eq_refl)). f_equal. apply IH. intros; apply H; right; assumption. Qed.
Lemma in_file ss s e : In e (file_effects ss s) -> exists n, e = Truncate s n \/ e = Put s n.
Proof.
  unfold file_effects, flush_effects. destruct (m_dirty _); [|intros []].
  destruct (_ && _); [intros []|]. destruct (_ <? _); [intros []|].
  intros [<-|H]; [eauto|]. apply in_map_iff in H. destruct H as (x & <- & _). eauto.
Qed.
Lemma in_leaf ss l e : In e (leaf_effects ss l) -> exists n b, e = Patch l n b.
Proof. unfold leaf_effects. intros H. apply in_map_iff in H. destruct H as (x & <- & _). eauto. Qed.
Lemma in_db ss e : In e (db_effects ss) -> exists d, e = Batch d.
Proof. unfold db_effects. destruct (db_pending ss); [intros [<-|[]]; eauto|intros []]. Qed.
Definition piece_eqb (p q : piece) : bool :=
  match p, q with File a, File b => dstore_eqb a b | Leaves a, Leaves b => lstore_eqb a b | Database, Database => true | _, _ => false end.
Lemma in_own ss p q e : In e (own ss q) -> on p e = piece_eqb p q.
Proof.
  destruct q as [s|l|]; cbn [own].
  - intros H. apply in_file in H. destruct H as (n & [->| ->]); destruct p; reflexivity.
  - intros H. apply in_leaf in H. destruct H as (n & b & ->); destruct p; reflexivity.
  - intros H. apply in_db in H. destruct H as (n & ->); destruct p; reflexivity.
Qed.
Lemma filter_own ss p q : filter (on p) (own ss q) = if piece_eqb p q then own ss q else [].
Proof.
  destruct (piece_eqb p q) eqn:E.
  - apply filter_all. intros x H. rewrite (in_own ss p q x H). exact E.
  - apply filter_none. intros x H. rewrite (in_own ss p q x H). exact E.
Qed.
(** A commit written with [own]. *)
Definition threads (ss : session) : list (list effect) :=
  [ own ss (File KernelHashes) ++ own ss (File KernelData);
    own ss (File OutputHashes) ++ own ss (File OutputData) ++ own ss (Leaves OutputLeaves);
    own ss (File ProofHashes) ++ own ss (File ProofData) ++ own ss (Leaves ProofLeaves) ].
Lemma commit_own ss es : Commit_effects ss es <-> exists t, interleaving (threads ss) t /\
  es = own ss (File CandidateChain) ++ own ss (File ConfirmedChain) ++ own ss Database ++ own ss (File HeaderHashes) ++ t.
Proof. reflexivity. Qed.
Ltac one k := eapply (il_one _ _ ltac:(eassumption) k); [reflexivity|repeat constructor|repeat constructor].
Lemma filter_commit ss es p : Commit_effects ss es -> filter (on p) es = own ss p.
Proof.
  rewrite commit_own. intros (t & H & ->). apply (il_filter (on p)) in H.
  unfold threads in H. cbn [map] in H. rewrite !filter_app, !filter_own in *.
  destruct p as [[]|[]|]; cbn [piece_eqb dstore_eqb lstore_eqb app] in *; rewrite ?app_nil_r in *.
  all: match goal with
       | H : interleaving [?a; []; []] ?t |- _ => rewrite (il_one _ _ H [] a [[]; []] eq_refl) by (repeat constructor)
       | H : interleaving [[]; ?a; []] ?t |- _ => rewrite (il_one _ _ H [[]] a [[]] eq_refl) by (repeat constructor)
       | H : interleaving [[]; []; ?a] ?t |- _ => rewrite (il_one _ _ H [[]; []] a [] eq_refl) by (repeat constructor)
       end; rewrite ?app_nil_r; reflexivity.
Qed.

(** All the writes of a file. *)
Lemma puts_file s st : forall m b, data_on_disk (apply_effects (firstn m (map (Put s) b)) st) s = data_on_disk st s ++ firstn m b.
Proof.
  intros m b. revert st m. induction b as [|x b IH]; intros st m; cbn [map].
  - rewrite !firstn_nil. cbn. rewrite app_nil_r. reflexivity.
  - destruct m as [|m]; cbn [firstn]; [cbn; rewrite app_nil_r; reflexivity|].
    change (apply_effects (Put s x :: ?l) st) with (apply_effects l (apply_effect st (Put s x))).
    rewrite IH. cbn [apply_effect data_on_disk]. replace (dstore_eqb s s) with true by (symmetry; apply dstore_eqb_eq; reflexivity).
    rewrite <- app_assoc. reflexivity.
Qed.
Lemma file_prefix ss s m st : okfile (file ss s) -> data_on_disk st s = disk (m_pFile (file ss s)) ->
  data_on_disk (apply_effects (firstn m (file_effects ss s)) st) s =
    match file_effects ss s, m with
    | [], _ | _, O => disk (m_pFile (file ss s))
    | _, S m' => firstn (N.to_nat (m_bufferIndex (m_pFile (file ss s)))) (disk (m_pFile (file ss s))) ++ firstn m' (m_buffer (m_pFile (file ss s)))
    end.
Proof.
  intros (A & B & C) E. unfold file_effects. destruct (m_dirty (file ss s)); [|rewrite firstn_nil; exact E].
  unfold flush_effects. destruct (_ && _) eqn:E1; [rewrite firstn_nil; exact E|]. destruct (_ <? _) eqn:E2; [rewrite firstn_nil; exact E|].
  destruct m as [|m]; [exact E|]. cbn [firstn].
  change (apply_effects (Truncate s ?n :: ?l) st) with (apply_effects l (apply_effect st (Truncate s n))).
  rewrite puts_file. cbn [apply_effect data_on_disk]. replace (dstore_eqb s s) with true by (symmetry; apply dstore_eqb_eq; reflexivity).
  rewrite E. unfold truncate. replace (_ <=? _) with true by lia. reflexivity.
Qed.
Lemma seen_clean d : okfile d -> m_dirty d = false -> seen d = disk (m_pFile d).
Proof.
  intros (A & B & C) D. destruct (C D) as (F & G). unfold seen. rewrite F, G, A, app_nil_r. unfold nlen. rewrite Nat2N.id. apply firstn_all.
Qed.
Lemma file_all ss s st : okfile (file ss s) -> data_on_disk st s = disk (m_pFile (file ss s)) ->
  data_on_disk (apply_effects (file_effects ss s) st) s = seen (file ss s).
Proof.
  intros K E. rewrite <- (firstn_all (file_effects ss s)). rewrite (file_prefix ss s _ st K E). pose proof K as (A & B & C).
  unfold file_effects. destruct (m_dirty (file ss s)) eqn:D; [|symmetry; apply seen_clean; assumption].
  unfold flush_effects, seen. destruct (_ && _) eqn:E1.
  - assert (m_buffer (m_pFile (file ss s)) = []) as -> by (destruct (m_buffer (m_pFile (file ss s))); [reflexivity|unfold nlen in E1; cbn in E1; lia]).
    rewrite app_nil_r. symmetry. apply firstn_all2. unfold nlen in A. lia.
  - replace (_ <? _) with false by lia. cbn [length]. rewrite map_length, firstn_all. reflexivity.
Qed.

(** ... of a leaf set. *)
Lemma patches l st : forall m, leaves_on_disk (apply_effects (map (fun kv : N * N => @Patch DB l (fst kv) (snd kv)) m) st) l =
  fold_left (fun f kv => write_byte f (fst kv) (snd kv)) m (leaves_on_disk st l).
Proof.
  intros m. revert st. induction m as [|kv m IH]; intros st; cbn [map]; [reflexivity|].
  change (apply_effects (?e :: ?l) st) with (apply_effects l (apply_effect st e)). rewrite IH. cbn [apply_effect leaves_on_disk fold_left].
  replace (lstore_eqb l l) with true by (symmetry; apply lstore_eqb_eq; reflexivity). reflexivity.
Qed.
Lemma sorted_firstn k (m : bmap) : keys_sorted m -> keys_sorted (firstn k m).
Proof.
  unfold keys_sorted. revert k. induction m as [|e m IH]; intros k H; [rewrite firstn_nil; constructor|].
  destruct k; cbn [firstn map]; [constructor|]. cbn [map] in H. inversion H as [|? ? H1 H2]; subst. constructor; [apply IH; assumption|].
  rewrite Forall_forall in *. intros x Hx. apply H2. rewrite <- (firstn_skipn k m), map_app. apply in_or_app; left; assumption.
Qed.
Lemma find_firstn k j (m : bmap) : keys_sorted m -> map_find j (firstn k m) = None \/ map_find j (firstn k m) = map_find j m.
Proof.
  revert k. induction m as [|[a v] m IH]; intros k H; [rewrite firstn_nil; left; reflexivity|].
  destruct k; cbn [firstn map_find]; [left; reflexivity|]. destruct (j =? a); [right; reflexivity|]. apply IH. inversion H; assumption.
Qed.
Lemma leaf_prefix ss l m st : wfb (leafset ss l) -> leaves_on_disk st l = bdisk (leafset ss l) -> forall j,
  let b := bit_of (leaves_on_disk (apply_effects (firstn m (leaf_effects ss l)) st) l) j in
  b = bit_of (bdisk (leafset ss l)) j \/ b = IsSet (leafset ss l) j.
Proof.
  intros W E j b. subst b. unfold leaf_effects. rewrite firstn_map, patches. rewrite E. unfold bit_of at 1 3. rewrite IsSet_bit.
  rewrite nth_writes by (apply sorted_firstn; exact W). rewrite N2Nat.id, GetByte_eq.
  destruct (find_firstn m (j / 8) (m_modifiedBytes (leafset ss l)) W) as [-> | ->]; [left|right]; reflexivity.
Qed.
Lemma leaf_all ss l st : wfb (leafset ss l) -> leaves_on_disk st l = bdisk (leafset ss l) -> forall j,
  bit_of (leaves_on_disk (apply_effects (leaf_effects ss l) st) l) j = IsSet (leafset ss l) j.
Proof.
  intros W E j. unfold leaf_effects. rewrite patches. rewrite E. unfold bit_of. rewrite IsSet_bit.
  rewrite nth_writes by exact W. rewrite N2Nat.id, GetByte_eq. reflexivity.
Qed.

(** From effects to [is_old] and [is_new]. *)
Lemma old_after ss es p : filter (on p) es = [] -> is_old ss (apply_effects es (on_disk ss)) p.
Proof.
  intros H. pose proof (agree_run p es (on_disk ss) (on_disk ss) (agree_refl p _)) as G. rewrite H in G. cbn in G.
  destruct p; cbn [agree is_old] in *; [exact G|rewrite G; reflexivity|exact G].
Qed.
Lemma new_after ss es p : ok ss -> filter (on p) es = own ss p -> is_new ss (apply_effects es (on_disk ss)) p.
Proof.
  intros [F L] H. pose proof (agree_run p es (on_disk ss) (on_disk ss) (agree_refl p _)) as G. rewrite H in G.
  destruct p as [s|l|]; cbn [agree is_new own] in *.
  - rewrite G. apply file_all; [apply F|reflexivity].
  - intros j. rewrite G. apply leaf_all; [apply L|reflexivity].
  - rewrite G. unfold db_effects. destruct (db_pending ss); reflexivity.
Qed.

(** Order. *)
Definition ordered (p q : piece) (es : list effect) : Prop :=
  exists a b, es = a ++ b /\ filter (on q) a = [] /\ filter (on p) b = [].
Lemma ordered_app_l p q a es : filter (on q) a = [] -> ordered p q es -> ordered p q (a ++ es).
Proof. intros H (x & y & -> & A & B). exists (a ++ x), y. rewrite app_assoc, filter_app, H, A. auto. Qed.
Lemma ordered_split p q a b : filter (on q) a = [] -> filter (on p) b = [] -> ordered p q (a ++ b).
Proof. intros. exists a, b; auto. Qed.
Lemma filter_nil_in {A} (f : A -> bool) l : filter f l = [] <-> forall x, In x l -> f x = false.
Proof.
  split; [|apply filter_none]. intros H x Hx. destruct (f x) eqn:E; [|reflexivity].
  assert (In x (filter f l)) by (apply filter_In; auto). rewrite H in *. contradiction.
Qed.
Lemma il_in {A} (ls : list (list A)) t : interleaving ls t -> forall x, In x t <-> exists l, In l ls /\ In x l.
Proof.
  induction 1 as [ls H|bef y l aft t _ IH]; intros x.
  - split; [intros []|]. intros (l & A1 & B). rewrite Forall_forall in H. rewrite (H l A1) in B. contradiction.
  - cbn [In]. rewrite IH. split.
    + intros [<-|(l0 & A1 & B)]; [exists (y :: l); split; [apply in_elt|left; reflexivity]|].
      apply in_app_or in A1. destruct A1 as [A1|[<-|A1]].
      * exists l0. split; [apply in_or_app; auto|assumption].
      * exists (y :: l). split; [apply in_elt|right; assumption].
      * exists l0. split; [apply in_or_app; right; right; assumption|assumption].
    + intros (l0 & A1 & B). apply in_app_or in A1. destruct A1 as [A1|[<-|A1]].
      * right. exists l0. split; [apply in_or_app; auto|assumption].
      * destruct B as [<-|B]; [left; reflexivity|right]. exists l. split; [apply in_elt|assumption].
      * right. exists l0. split; [apply in_or_app; right; right; assumption|assumption].
Qed.
(** If in each thread all of [p] comes before all of [q], and each of them is in one thread only, then so it is in every order. *)
Lemma il_ordered (p q : piece) ls t : interleaving ls t -> forall bef a aft, ls = bef ++ a :: aft -> ordered p q a ->
  Forall (fun l => filter (on p) l = [] /\ filter (on q) l = []) bef -> Forall (fun l => filter (on p) l = [] /\ filter (on q) l = []) aft ->
  ordered p q t.
Proof.
  induction 1 as [ls H|bef x l aft t HI IH]; intros b0 a0 c0 E O Hb Hc.
  - exists [], []. auto.
  - (* which thread takes the step *)
    assert (D : (exists b1 b2, b0 = b1 ++ (x :: l) :: b2 /\ bef ++ l :: aft = (b1 ++ l :: b2) ++ a0 :: c0) \/
                (a0 = x :: l /\ bef ++ l :: aft = b0 ++ l :: c0) \/
                (exists c1 c2, c0 = c1 ++ (x :: l) :: c2 /\ bef ++ l :: aft = b0 ++ a0 :: c1 ++ l :: c2)).
    { clear - E. revert b0 E. induction bef as [|b bef IH]; intros b0 E; destruct b0 as [|y b0]; cbn [app] in *.
      - injection E as <- <-. right; left. auto.
      - injection E as <- ->. left. exists [], b0. auto.
      - injection E as -> <-. right; right. exists bef, aft. auto.
      - injection E as <- E. destruct (IH b0 E) as [(b1 & b2 & -> & E2)|[(-> & E2)|(c1 & c2 & -> & E2)]].
        + left. exists (b :: b1), b2. cbn [app]. rewrite E2. auto.
        + right; left. rewrite E2. auto.
        + right; right. exists c1, c2. rewrite E2. auto. }
    assert (X : forall l0, (filter (on p) (x :: l0) = [] /\ filter (on q) (x :: l0) = []) ->
       on p x = false /\ on q x = false /\ filter (on p) l0 = [] /\ filter (on q) l0 = []).
    { intros l0 [A1 A2]. cbn [filter] in *. destruct (on p x), (on q x); try discriminate. auto. }
    assert (Skip : forall t', on p x = false -> on q x = false -> ordered p q t' -> ordered p q (x :: t')).
    { intros t' A1 A2 O'. apply (ordered_app_l p q [x]); [cbn; rewrite A2; reflexivity|exact O']. }
    destruct D as [(b1 & b2 & -> & E2)|[(-> & E2)|(c1 & c2 & -> & E2)]].
    + apply Forall_app in Hb. destruct Hb as [Hb1 Hb2]. inversion Hb2 as [|? ? K Hb3]; subst. apply X in K. destruct K as (K1 & K2 & K3 & K4).
      apply Skip; [assumption..|]. eapply IH; [exact E2|exact O| |exact Hc]. apply Forall_app; auto.
    + destruct O as (u & v & E3 & A1 & A2). destruct u as [|y u]; cbn [app] in E3.
      * subst v. exists [], (x :: t). split; [reflexivity|]. split; [reflexivity|].
        apply filter_nil_in. intros z Hz.
        assert (Hz' : exists l1, In l1 (bef ++ (x :: l) :: aft) /\ In z l1).
        { destruct Hz as [<-|Hz]; [exists (x :: l); split; [apply in_elt|left; reflexivity]|].
          apply (il_in _ _ HI) in Hz. destruct Hz as (l1 & B1 & B2). apply in_app_or in B1. destruct B1 as [B1|[<-|B1]].
          - exists l1. split; [apply in_or_app; auto|assumption].
          - exists (x :: l). split; [apply in_elt|right; assumption].
          - exists l1. split; [apply in_or_app; right; right; assumption|assumption]. }
        destruct Hz' as (l1 & B1 & B2). rewrite E in B1. rewrite Forall_forall in Hb, Hc.
        apply in_app_or in B1. destruct B1 as [B1|[<-|B1]].
        -- exact (proj1 (filter_nil_in _ _) (proj1 (Hb l1 B1)) z B2).
        -- exact (proj1 (filter_nil_in _ _) A2 z B2).
        -- exact (proj1 (filter_nil_in _ _) (proj1 (Hc l1 B1)) z B2).
      * injection E3 as <- ->. cbn [filter] in A1. destruct (on q x) eqn:Q; [discriminate|].
        apply (ordered_app_l p q [x]); [cbn; rewrite Q; reflexivity|].
        eapply IH; [exact E2| |exact Hb|exact Hc]. exists u, v; auto.
    + apply Forall_app in Hc. destruct Hc as [Hc1 Hc2]. inversion Hc2 as [|? ? K Hc3]; subst. apply X in K. destruct K as (K1 & K2 & K3 & K4).
      apply Skip; [assumption..|]. eapply IH; [exact E2|exact O|exact Hb|]. apply Forall_app; auto.
Qed.
Lemma il_none (p : piece) ls t : interleaving ls t -> Forall (fun l => filter (on p) l = []) ls -> filter (on p) t = [].
Proof.
  intros H G. apply filter_nil_in. intros x Hx. apply (il_in _ _ H) in Hx. destruct Hx as (l & A1 & B).
  rewrite Forall_forall in G. exact (proj1 (filter_nil_in _ _) (G l A1) x B).
Qed.
End P.
