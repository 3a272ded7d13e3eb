(** Model of committing the chain state to disk, write by write, and of opening it again (for C22). *)
From Verif Require Import Base Bytes FileModel BitmapModel.
Local Open Scope N_scope.

(** The record files written by a commit: the two chain files (BlockChain/ChainStore.cpp:20-40, Chain.cpp:26), the header hashes
    (PMMR/HeaderMMRImpl.cpp:15-20) and the files of the three sets (PMMR/KernelMMR.cpp:17-20, OutputPMMR.h:18,33, RangeProofPMMR.h). *)
Inductive dstore := CandidateChain | ConfirmedChain | HeaderHashes | KernelHashes | KernelData | OutputHashes | OutputData
  | ProofHashes | ProofData.
(** The two leaf sets (OutputPMMR.h:31 and RangeProofPMMR.h). *)
Inductive lstore := OutputLeaves | ProofLeaves.
Definition dstore_eqb (a b : dstore) : bool :=
  match a, b with
  | CandidateChain, CandidateChain | ConfirmedChain, ConfirmedChain | HeaderHashes, HeaderHashes | KernelHashes, KernelHashes
  | KernelData, KernelData | OutputHashes, OutputHashes | OutputData, OutputData | ProofHashes, ProofHashes | ProofData, ProofData => true
  | _, _ => false
  end.
Definition lstore_eqb (a b : lstore) : bool :=
  match a, b with OutputLeaves, OutputLeaves | ProofLeaves, ProofLeaves => true | _, _ => false end.

(** Chain.cpp:26, include/PMMR/Common/HashFile (32), KernelMMR.h:15, OutputPMMR.h:9, RangeProofPMMR.h:9. *)
Definition record_size (s : dstore) : N :=
  match s with KernelData => 114 | OutputData => 34 | ProofData => 683 | _ => 32 end.

Section Crash.
(** The contents of the block database, and looking up a block header in it (Database/BlockDBImpl.cpp: GetBlockHeader). *)
Context {DB Hdr : Type}.
Variable GetBlockHeader : DB -> bytes -> option Hdr.

(** What is on disk. *)
Record storage := mkStorage { data_on_disk : dstore -> bytes; leaves_on_disk : lstore -> bytes; db_on_disk : DB }.

(** One change of the disk. A file is changed by truncation, by appending a byte, or (leaf sets) by writing a byte at an offset; the
    database by a transaction, which RocksDB applies as a whole (Database/RocksDB/RocksDB.h: Commit). That a write may stop after
    any byte is more than a process that is merely killed does for short writes; the refutations below that do not speak of torn
    records only stop between whole writes. Writes that the system reorders or loses after they returned are not modelled. *)
Inductive effect := Truncate (s : dstore) (n : N) | Put (s : dstore) (b : N) | Patch (s : lstore) (pos b : N) | Batch (d : DB).
Definition apply_effect (st : storage) (e : effect) : storage :=
  match e with
  | Truncate s n => mkStorage (fun s' => if dstore_eqb s' s then truncate (data_on_disk st s') n else data_on_disk st s')
                      (leaves_on_disk st) (db_on_disk st)
  | Put s b => mkStorage (fun s' => if dstore_eqb s' s then data_on_disk st s' ++ [b] else data_on_disk st s')
                      (leaves_on_disk st) (db_on_disk st)
  | Patch s pos b => mkStorage (data_on_disk st)
                      (fun s' => if lstore_eqb s' s then write_byte (leaves_on_disk st s') pos b else leaves_on_disk st s') (db_on_disk st)
  | Batch d => mkStorage (data_on_disk st) (leaves_on_disk st) d
  end.
Definition apply_effects (es : list effect) (st : storage) : storage := fold_left apply_effect es st.

(** The objects of a running program: its files, its leaf sets, the database and the pending transaction on it, if any. *)
Record session := mkSession { file : dstore -> dfile; leafset : lstore -> bitmapfile; db_now : DB; db_pending : option DB }.
Definition on_disk (ss : session) : storage :=
  mkStorage (fun s => disk (m_pFile (file ss s))) (fun l => bdisk (leafset ss l)) (db_now ss).

(** AppendOnlyFile.cpp:12-34 and MappedFile_Nix.cpp:40-63. In the second case Flush fails; no sequence of calls leads there. *)
Definition flush_effects (s : dstore) (f : aof) : list effect :=
  if (m_fileSize f =? m_bufferIndex f) && (nlen (m_buffer f) =? 0) then []
  else if m_fileSize f <? m_bufferIndex f then []
  else Truncate s (m_bufferIndex f) :: map (Put s) (m_buffer f).
(** DataFile.h:27-38. *)
Definition file_effects (ss : session) (s : dstore) : list effect :=
  if m_dirty (file ss s) then flush_effects s (m_pFile (file ss s)) else [].
(** BitmapFile.h:52-78: one write for each entry of the map, in order of the keys. *)
Definition leaf_effects (ss : session) (l : lstore) : list effect :=
  map (fun kv => Patch l (fst kv) (snd kv)) (m_modifiedBytes (leafset ss l)).
(** BlockDBImpl.cpp:47-57. *)
Definition db_effects (ss : session) : list effect :=
  match db_pending ss with Some d => [Batch d] | None => [] end.

(** The steps of several threads in one order: each time, one of the threads does its next step. *)
Inductive interleaving {A} : list (list A) -> list A -> Prop :=
| il_done ls : Forall (fun l => l = []) ls -> interleaving ls []
| il_step before x l after t : interleaving (before ++ l :: after) t -> interleaving (before ++ (x :: l) :: after) (x :: t).

(** TxHashSetImpl.cpp:370-379: three threads. KernelMMR.cpp:59-63, PruneableMMR.h:138-148 (the flag of the set is not modelled:
    every call that changes one of its files sets it). *)
Definition txhashset_threads (ss : session) : list (list effect) :=
  [ file_effects ss KernelHashes ++ file_effects ss KernelData;
    file_effects ss OutputHashes ++ file_effects ss OutputData ++ leaf_effects ss OutputLeaves;
    file_effects ss ProofHashes ++ file_effects ss ProofData ++ leaf_effects ss ProofLeaves ].
(** ChainState.cpp:222-243, ChainStore.cpp:42-47, HeaderMMRImpl.cpp:22-31: the effects of a whole commit, in one of the possible
    orders. (The flags of the chains and of the header MMR are not modelled either: changing their file sets them.) *)
Definition Commit_effects (ss : session) (es : list effect) : Prop :=
  exists t, interleaving (txhashset_threads ss) t /\
    es = file_effects ss CandidateChain ++ file_effects ss ConfirmedChain ++ db_effects ss ++ file_effects ss HeaderHashes ++ t.

(** What a process that stops during the commit leaves on disk. *)
Definition crash (ss : session) (st : storage) : Prop :=
  exists es k, Commit_effects ss es /\ st = apply_effects (firstn k es) (on_disk ss).
(** ... and one that finishes it. *)
Definition committed_disk (ss : session) (st : storage) : Prop :=
  exists es, Commit_effects ss es /\ st = apply_effects es (on_disk ss).

(** Chain.cpp:20-45: the hashes of the chain found in a file; index 0 is not read but taken to be the genesis block. [n] is the
    number of records still to read. *)
Fixpoint read_hashes (d : dfile) (i : N) (n : nat) : outcome (list bytes) :=
  match n with
  | O => Ret []
  | S n' => let* h := DF_GetDataAt 32 d i in let* l := read_hashes d (i + 1) n' in Ret (h :: l)
  end.
Definition Chain_Load (genesis : bytes) (contents : bytes) : outcome (list bytes) :=
  let d := DF_Load contents in
  let* d := if DF_GetSize 32 d =? 0 then DF_Commit (DF_AddData d genesis) else Ret d in
  let* l := read_hashes d 1 (N.to_nat (DF_GetSize 32 d - 1)) in
  Ret (genesis :: l).

(** ChainState.cpp:38-69 with TxHashSetManager.cpp:21-48, for a candidate chain longer than the genesis block: the chains are read,
    the header of the confirmed tip is looked up (it may be missing), and all files are opened. Sizes, roots and sums are not compared. *)
Record restarted := mkRestarted { r_candidate : list bytes; r_confirmed : list bytes; r_header : option Hdr;
  r_file : dstore -> dfile; r_leafset : lstore -> bitmapfile }.
Definition Restart (genesis : bytes) (st : storage) : outcome restarted :=
  let* confirmed := Chain_Load genesis (data_on_disk st ConfirmedChain) in
  let* candidate := Chain_Load genesis (data_on_disk st CandidateChain) in
  Ret (mkRestarted candidate confirmed (GetBlockHeader (db_on_disk st) (last confirmed genesis))
         (fun s => DF_Load (data_on_disk st s)) (fun l => BF_Load (leaves_on_disk st l))).
End Crash.
