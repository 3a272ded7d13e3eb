(** C08: a data file of fixed-size records behaves like a pair of record lists. *)
From Verif Require Import Base Bytes FileModel FileSpec FileProofs.
Local Open Scope N_scope.

(** The model operations / results that correspond to those of the specification. *)
Definition call (o : sop) : fop :=
  match o with
  | SAdd r => FAdd r | SRewind n => FRewind n | SCommit => FCommit | SRollback => FRollback
  | SGet i => FGet i | SSize => FSize
  end.
Definition answer (r : sres) : fres :=
  match r with SDone => RDone | SError => RThrow | SRecord b => RBytes b | SCount n => RNum n end.

(** For every record size, every initial file of whole records and every sequence of calls
    the specification allows (reads in bounds, records of the right size, sizes below 2^64
    bytes): the results are exactly those of the record lists; never undefined behaviour; and
    afterwards the bytes on disk are the committed records. *)
Theorem C08_data_file_refines_lists NUM init ops rs s' :
  0 < NUM -> Forall (fun r => N.of_nat (length r) = NUM) init ->
  Forall (op_ok NUM) ops -> small_run NUM (mkF init init) ops ->
  spec_run (mkF init init) ops rs s' ->
  exists d', DF_run NUM (DF_Load (concat init)) (map call ops) = (map answer rs, d') /\
             disk (m_pFile d') = concat (committed s').
Proof.
  intros HN Hi Ho Hs Hr.
  destruct (run_ok NUM HN ops _ _ _ _ (inv_load NUM HN init Hi) Ho Hr Hs) as (d' & E & I).
  exists d'. split; [exact E|]. apply I.
Qed.

(** Rolling back after any such sequence and reloading from disk after a commit both give the
    committed records. *)
Theorem C08_commit_then_reload NUM init ops rs s' :
  0 < NUM -> Forall (fun r => N.of_nat (length r) = NUM) init ->
  Forall (op_ok NUM) ops -> small_run NUM (mkF init init) ops ->
  spec_run (mkF init init) ops rs s' ->
  exists d1 d2, DF_run NUM (DF_Load (concat init)) (map call ops) = (map answer rs, d1) /\
    DF_Commit d1 = Ret d2 /\ disk (m_pFile d2) = concat (current s') /\
    DF_GetSize NUM d2 = N.of_nat (length (current s')).
Proof.
  intros HN Hi Ho Hs Hr.
  destruct (run_ok NUM HN ops _ _ _ _ (inv_load NUM HN init Hi) Ho Hr Hs) as (d' & E & I).
  assert (Sm : nlen (current s') * NUM < W64).
  { clear - Hr Hs. revert Hs. induction Hr; intros Hs; [inversion Hs; assumption|]. inversion Hs; subst.
    destruct (spec_step_det _ _ _ _ _ _ H H4) as [_ ->]. apply IHHr. assumption. }
  destruct (step_ok NUM HN d' s' SCommit SDone _ I Logic.I (st_commit s') Sm Sm) as (d2 & E2 & I2).
  destruct (step_ok NUM HN d2 _ SSize _ _ I2 Logic.I (st_size _) Sm Sm) as (d3 & E3 & I3).
  exists d', d2. split; [exact E|].
  cbn [op_of res_of DF_step] in E2, E3. destruct (DF_Commit d') as [x| |] eqn:EC; inversion E2; subst.
  split; [reflexivity|]. split; [apply (iD _ _ _ I2)|]. inversion E3. reflexivity.
Qed.

(** A concrete run: two records committed, one rewound, one added, rolled back, read. *)
Example C08_example :
  let ops := [SAdd [5;6]; SCommit; SRewind 1; SAdd [7;8]; SGet 1; SSize; SRollback; SGet 1] in
  let rs := [SDone; SDone; SDone; SDone; SRecord [7;8]; SCount 2; SDone; SRecord [5;6]] in
  0 < 2 /\ Forall (op_ok 2) ops /\ small_run 2 (mkF [[1;2]] [[1;2]]) ops /\
  (exists s', spec_run (mkF [[1;2]] [[1;2]]) ops rs s') /\
  fst (DF_run 2 (DF_Load [1;2]) (map call ops)) = map answer rs.
Proof.
  cbv zeta. split; [lia|]. split; [repeat constructor|]. split; [|split].
  - repeat (eapply small_cons; [vm_compute; reflexivity|first [apply st_add|apply st_commit|apply st_rewind; vm_compute; discriminate|apply st_rollback|eapply st_get; vm_compute; reflexivity|apply st_size]|cbn]).
    apply small_nil. vm_compute. reflexivity.
  - eexists. repeat (eapply run_cons; [first [apply st_add|apply st_commit|apply st_rewind; vm_compute; discriminate|apply st_rollback|apply st_get; vm_compute; reflexivity|apply st_size]|]). apply run_nil.
  - vm_compute. reflexivity.
Qed.

(** Without the size bound the claim is false: the byte offset [size * NUM_BYTES] is computed in
    64 bits, so asking a file of 32-byte records to rewind to 2^59 records is not refused but
    empties the file. *)
Theorem C08_rewind_overflow_refuted :
  exists init n, Forall (fun r => N.of_nat (length r) = 32) init /\ N.of_nat (length init) < n < W64 /\
    exists d, DF_Rewind 32 (DF_Load (concat init)) n = (true, d) /\ DF_GetSize 32 d = 0.
Proof.
  exists [repeat 1 32], (2 ^ 59). split; [repeat constructor|]. split; [vm_compute; split; reflexivity|].
  eexists. split; vm_compute; reflexivity.
Qed.

Print Assumptions C08_data_file_refines_lists.
Print Assumptions C08_commit_then_reload.
Print Assumptions C08_rewind_overflow_refuted.
