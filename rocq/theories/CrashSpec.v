(** Specification for C22. *)
From Verif Require Import Base Bytes FileModel BitmapModel BitmapSpec CrashModel.
Local Open Scope N_scope.

Section S.
Context {DB : Type}.
Notation session := (@session DB).
Notation storage := (@storage DB).

(** The files of the session were opened and then used by any calls. *)
Definition reached (ss : session) : Prop :=
  (forall s, exists contents ops, file ss s = snd (DF_run (record_size s) (DF_Load contents) ops)) /\
  (forall l, exists contents ops, leafset ss l = fold_left BF_step ops (BF_Load contents)).

(** The pieces of the chain state. *)
Inductive piece := File (s : dstore) | Leaves (l : lstore) | Database.

(** The bytes of a record file as the program sees it: what remains of the file on disk, then what is in its buffer. *)
Definition seen (d : dfile) : bytes :=
  firstn (N.to_nat (m_bufferIndex (m_pFile d))) (disk (m_pFile d)) ++ m_buffer (m_pFile d).

(** A piece is as it was before the commit; a piece is as the program wants it to be. *)
Definition is_old (ss : session) (st : storage) (p : piece) : Prop :=
  match p with
  | File s => data_on_disk st s = disk (m_pFile (file ss s))
  | Leaves l => forall j, bit_of (leaves_on_disk st l) j = bit_of (bdisk (leafset ss l)) j
  | Database => db_on_disk st = db_now ss
  end.
Definition is_new (ss : session) (st : storage) (p : piece) : Prop :=
  match p with
  | File s => data_on_disk st s = seen (file ss s)
  | Leaves l => forall j, bit_of (leaves_on_disk st l) j = IsSet (leafset ss l) j
  | Database => db_on_disk st = match db_pending ss with Some d => d | None => db_now ss end
  end.
(** The commit has something to do for a piece. *)
Definition changes (ss : session) (p : piece) : Prop :=
  match p with
  | File s => seen (file ss s) <> disk (m_pFile (file ss s))
  | Leaves l => exists j, IsSet (leafset ss l) j <> bit_of (bdisk (leafset ss l)) j
  | Database => exists d, db_pending ss = Some d /\ d <> db_now ss
  end.
(** C22 for one session. *)
Definition atomic (ss : session) : Prop :=
  forall st, crash ss st -> (forall p, is_old ss st p) \/ (forall p, is_new ss st p).

(** The order in which the pieces are written: the two chains, the database, the header hashes, then three independent groups. *)
Definition stage (p : piece) : nat :=
  match p with
  | File CandidateChain => 0 | File ConfirmedChain => 1 | Database => 2 | File HeaderHashes => 3
  | File KernelHashes | File OutputHashes | File ProofHashes => 4
  | File KernelData | File OutputData | File ProofData => 5
  | Leaves _ => 6
  end.
Inductive group := Main | Kernels | Outputs | Proofs.
Definition group_of (p : piece) : group :=
  match p with
  | File KernelHashes | File KernelData => Kernels
  | File OutputHashes | File OutputData | Leaves OutputLeaves => Outputs
  | File ProofHashes | File ProofData | Leaves ProofLeaves => Proofs
  | _ => Main
  end.
Definition before (p q : piece) : Prop := (stage p < stage q)%nat /\ (group_of p = Main \/ group_of p = group_of q).

(** Nothing of what is on disk has been rewound since the last commit. *)
Definition only_appended (d : dfile) : Prop := m_bufferIndex (m_pFile d) = N.of_nat (length (disk (m_pFile d))).
(** The program sees this list of hashes in a chain file. *)
Definition chain_file (d : dfile) (l : list bytes) : Prop :=
  seen d = concat l /\ Forall (fun h => length h = 32%nat) l /\ N.of_nat (length l) * 32 < W64.
End S.
