(** C22: what a process that stops while the chain state is being committed leaves behind. *)
From Verif Require Import Base Bytes FileModel BitmapModel BitmapSpec CrashModel CrashSpec CrashMain CrashRestart.
Local Open Scope N_scope.

Section T.
Context {DB Hdr : Type}.
Variable GetBlockHeader : DB -> bytes -> option Hdr.
Variable ss : @session DB.
Hypothesis R : reached ss.

(** A commit that is not interrupted brings every piece to its new state, in whatever order the threads run. *)
Theorem C22_complete st : committed_disk ss st -> forall p, is_new ss st p.
Proof. intros H p. exact (complete ss st p R H). Qed.

(** Wherever the process stops: the database is old or new; each bit of a leaf set is old or new; a record file is old, or consists of
    the part of it that is kept followed by some first bytes of what is added. *)
Theorem C22_pieces_partial st : crash ss st ->
  (is_old ss st Database \/ is_new ss st Database) /\
  (forall l j, bit_of (leaves_on_disk st l) j = bit_of (bdisk (leafset ss l)) j \/ bit_of (leaves_on_disk st l) j = IsSet (leafset ss l) j) /\
  (forall s, is_old ss st (File s) \/
     exists m, data_on_disk st s =
       firstn (N.to_nat (m_bufferIndex (m_pFile (file ss s)))) (disk (m_pFile (file ss s))) ++ firstn m (m_buffer (m_pFile (file ss s)))).
Proof.
  intros H. split; [exact (crash_db ss st H)|]. split; [intros l j; exact (crash_leaf ss st l j R H)|]. intros s. exact (crash_file ss st s R H).
Qed.

(** Nothing of a later piece is written before an earlier piece is complete. *)
Theorem C22_order st p q : crash ss st -> before p q -> is_old ss st q \/ is_new ss st p.
Proof. intros H B. exact (crash_order ss st p q R H B). Qed.

(** Every record that the commit keeps can still be read after a restart. *)
Theorem C22_records_kept st s i : crash ss st ->
  i * record_size s + record_size s <= m_bufferIndex (m_pFile (file ss s)) -> i * record_size s + record_size s < W64 ->
  DF_GetDataAt (record_size s) (DF_Load (data_on_disk st s)) i =
  DF_GetDataAt (record_size s) (DF_Load (disk (m_pFile (file ss s)))) i.
Proof. intros H. exact (kept_records ss st s i R H). Qed.

(** If only the database has something to commit, the commit is atomic. *)
Theorem C22_database_only : (forall s, m_dirty (file ss s) = false) -> (forall l, m_modifiedBytes (leafset ss l) = []) -> atomic ss.
Proof. exact (quiet ss R). Qed.

(** C22 is false: as soon as two pieces change, the commit is not atomic. Adding a block changes at least the confirmed chain, the
    database and the outputs. *)
Theorem C22_refuted p q : p <> q -> changes ss p -> changes ss q -> ~ atomic ss.
Proof. exact (not_atomic ss p q R). Qed.
(** ... and an earlier piece can be new while a later one is old. *)
Theorem C22_mixed_refuted p q : before p q -> changes ss p -> changes ss q ->
  exists st, crash ss st /\ is_new ss st p /\ ~ is_old ss st p /\ is_old ss st q /\ ~ is_new ss st q.
Proof. exact (witness ss p q R). Qed.

(** The restart does not notice: the confirmed tip can be the new block while the database and all output, proof and kernel files are
    the old ones. *)
Theorem C22_restart_refuted g cs hs h :
  chain_file (file ss CandidateChain) (g :: cs) -> chain_file (file ss ConfirmedChain) (g :: hs ++ [h]) ->
  exists st r, crash ss st /\ Restart GetBlockHeader g st = Ret r /\ r_confirmed r = g :: hs ++ [h] /\
    r_header r = GetBlockHeader (db_now ss) h /\
    (forall s, s <> CandidateChain -> s <> ConfirmedChain -> r_file r s = DF_Load (disk (m_pFile (file ss s)))) /\
    (forall l j, IsSet (r_leafset r l) j = bit_of (bdisk (leafset ss l)) j).
Proof. exact (restart_mixed GetBlockHeader ss g cs hs h R). Qed.

(** In a reorganisation, the confirmed chain after a restart can be shorter than both the old one and the new one. *)
Theorem C22_reorg_refuted g common old_branch new_branch cs : new_branch <> [] ->
  disk (m_pFile (file ss ConfirmedChain)) = concat (g :: common ++ old_branch) ->
  m_bufferIndex (m_pFile (file ss ConfirmedChain)) = N.of_nat (length (g :: common)) * 32 ->
  m_buffer (m_pFile (file ss ConfirmedChain)) = concat new_branch ->
  Forall (fun h => length h = 32%nat) (g :: common ++ old_branch) -> Forall (fun h => length h = 32%nat) new_branch ->
  N.of_nat (length (g :: common)) * 32 < W64 ->
  chain_file (file ss CandidateChain) (g :: cs) ->
  exists st r, crash ss st /\ Restart GetBlockHeader g st = Ret r /\ r_confirmed r = g :: common.
Proof. exact (reorg_short GetBlockHeader ss g common old_branch new_branch cs R). Qed.

(** If a write stops inside a record, the record added next after the restart is not the one that is read back: a byte [b] of the torn
    record is in front of it. *)
Theorem C22_torn_refuted s count b rest r :
  only_appended (file ss s) -> N.of_nat (length (disk (m_pFile (file ss s)))) = count * record_size s ->
  m_buffer (m_pFile (file ss s)) = b :: rest -> N.of_nat (length r) = record_size s -> count * record_size s + record_size s < W64 ->
  exists st, crash ss st /\
    let d := DF_AddData (DF_Load (data_on_disk st s)) r in
    DF_GetSize (record_size s) d = count + 1 /\ DF_GetSize (record_size s) (DF_Load (data_on_disk st s)) = count /\
    exists d', DF_Commit d = Ret d' /\ DF_GetDataAt (record_size s) d' count = Ret (b :: firstn (length r - 1) r).
Proof. exact (torn ss s count b rest r R). Qed.
End T.

(** A session that extends the chain [g; a] by [b], in both chains, the database, the output hashes and the output leaf set. *)
Definition gh : bytes := repeat 1 32.
Definition ah : bytes := repeat 2 32.
Definition bh : bytes := repeat 3 32.
Definition ops_ext (s : dstore) : bytes * list fop :=
  match s with
  | CandidateChain | ConfirmedChain => (gh ++ ah, [FAdd bh])
  | OutputHashes => (repeat 7 32, [FAdd (repeat 8 32)])
  | _ => ([], [])
  end.
Definition session_of (ops : dstore -> bytes * list fop) (lops : lstore -> bytes * list bop) (d : list bytes) (p : option (list bytes)) : @session (list bytes) :=
  mkSession (fun s => snd (DF_run (record_size s) (DF_Load (fst (ops s))) (snd (ops s))))
    (fun l => fold_left BF_step (snd (lops l)) (BF_Load (fst (lops l)))) d p.
Lemma session_of_reached ops lops d p : reached (session_of ops lops d p).
Proof.
  split; [intros s; exists (fst (ops s)), (snd (ops s)); reflexivity|intros l; exists (fst (lops l)), (snd (lops l)); reflexivity].
Qed.
Definition extend_session := session_of ops_ext (fun l => match l with OutputLeaves => ([128], [BSet 1]) | _ => ([], []) end) [gh; ah] (Some [gh; ah; bh]).
Example extend_reached : reached extend_session.
Proof. apply session_of_reached. Qed.
Example extend_changes : changes extend_session (File ConfirmedChain) /\ changes extend_session (File OutputHashes) /\
  changes extend_session (Leaves OutputLeaves) /\ changes extend_session Database.
Proof.
  split; [vm_compute; discriminate|]. split; [vm_compute; discriminate|]. split; [exists 1; vm_compute; discriminate|].
  exists [gh; ah; bh]. split; [reflexivity|discriminate].
Qed.
Example extend_not_atomic : ~ atomic extend_session.
Proof. apply (C22_refuted _ extend_reached (File ConfirmedChain) Database); [discriminate|apply extend_changes|apply extend_changes]. Qed.
Example extend_before : before (File ConfirmedChain) (File OutputHashes) /\ before (File OutputHashes) (Leaves OutputLeaves).
Proof. split; (split; [cbn; lia|cbn; auto]). Qed.
Example extend_chains : chain_file (file extend_session CandidateChain) (gh :: [ah; bh]) /\ chain_file (file extend_session ConfirmedChain) (gh :: [ah] ++ [bh]).
Proof. split; (split; [vm_compute; reflexivity|split; [repeat constructor|vm_compute; reflexivity]]). Qed.
Example extend_torn_applies : only_appended (file extend_session OutputHashes) /\
  N.of_nat (length (disk (m_pFile (file extend_session OutputHashes)))) = 1 * record_size OutputHashes /\
  m_buffer (m_pFile (file extend_session OutputHashes)) = 8 :: repeat 8 31.
Proof. repeat split; vm_compute; reflexivity. Qed.
(** A reorganisation: the block [a] is replaced by [b]. *)
Definition reorg_session := session_of
  (fun s => match s with CandidateChain | ConfirmedChain => (gh ++ ah, [FRewind 1; FAdd bh]) | _ => ([], []) end) (fun _ => ([], [])) [gh; ah; bh] None.
Example reorg_shorter : exists st r, crash reorg_session st /\
  Restart (fun (d : list bytes) h => find (fun x => bytes_eqb x h) d) gh st = Ret r /\ r_confirmed r = [gh].
Proof.
  apply (C22_reorg_refuted _ _ (session_of_reached _ _ _ _) gh [] [ah] [bh] [bh]).
  1: discriminate. all: try (vm_compute; reflexivity). 1-2: repeat constructor.
  split; [vm_compute; reflexivity|split; [repeat constructor|vm_compute; reflexivity]].
Qed.

Definition crash_theorems := (@C22_complete, @C22_pieces_partial, @C22_order, @C22_records_kept, @C22_database_only, @C22_refuted,
  @C22_mixed_refuted, @C22_restart_refuted, @C22_reorg_refuted, @C22_torn_refuted).
Print Assumptions crash_theorems.
