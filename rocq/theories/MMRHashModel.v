(** Model of the hash part of an unpruned MMR (header MMR, kernel MMR):
    src/PMMR/Common/MMRHashUtil.cpp, src/PMMR/HeaderMMRImpl.cpp, src/PMMR/KernelMMR.cpp.
    The hash file (DataFile<32>) is the list of the hashes stored in it; its commit/rollback layer is
    modelled in FileModel.v.  Blake2b is a parameter. *)
From Verif Require Import Base Bytes MMRIndexModel.
Local Open Scope N_scope.

Section MMRHash.
Variable Blake2b : bytes -> bytes.

(** include/Crypto/Models/Hash.h ZERO_HASH *)
Definition ZERO_HASH : bytes := repeat 0 32.

(** src/PMMR/Common/MMRHashUtil.cpp:110-116 HashLeafWithIndex *)
Definition HashLeafWithIndex (serializedLeaf : bytes) (mmrIndex : N) : bytes :=
  Blake2b (be_bytes 8 mmrIndex ++ serializedLeaf).

(** src/PMMR/Common/MMRHashUtil.cpp:118-125 HashParentWithIndex *)
Definition HashParentWithIndex (leftChild rightChild : bytes) (parentIndex : N) : bytes :=
  Blake2b (be_bytes 8 parentIndex ++ leftChild ++ rightChild).

(** DataFile::GetDataAt on the hash file. Reading at or beyond the end has no defined result
    (AppendOnlyFile::Read has no bounds check): [Fault]. *)
Definition GetDataAt (file : list bytes) (i : N) : outcome bytes :=
  match nth_error file (N.to_nat i) with Some h => Ret h | None => Fault end.

(** DataFile::GetSize: number of records *)
Definition GetSize (file : list bytes) : N := N.of_nat (length file).

(** src/PMMR/Common/MMRHashUtil.cpp:24-30, the loop adding parent hashes (pPruneList == nullptr).
    A run of parents is at most 64 long on 64-bit positions; exhausting the fuel is a [Fault]. *)
Fixpoint AddParents (fuel : nat) (file : list bytes) (mmr_idx : Index) : outcome (list bytes) :=
  if IsLeaf mmr_idx then Ret file
  else match fuel with
       | O => Fault
       | S f =>
         let* lc := GetLeftChild mmr_idx in
         let* leftHash := GetDataAt file (idx_position lc) in
         let* rc := GetRightChild mmr_idx in
         let* rightHash := GetDataAt file (idx_position rc) in
         AddParents f (file ++ [HashParentWithIndex leftHash rightHash (idx_position mmr_idx)])
                    (GetNext mmr_idx)
       end.

(** src/PMMR/Common/MMRHashUtil.cpp:8-31 AddHashes, pPruneList == nullptr *)
Definition AddHashes (file : list bytes) (serializedLeaf : bytes) : outcome (list bytes) :=
  let position := GetSize file in
  AddParents 64 (file ++ [HashLeafWithIndex serializedLeaf position])
             (Index_At (add64 position 1)).

(** src/PMMR/Common/MMRHashUtil.cpp:44-54, the loop over the peaks from right to left.
    [peaks] is the list in iteration order (already reversed). *)
Fixpoint RootLoop (file : list bytes) (size : N) (peaks : list N) (hash : bytes) : outcome bytes :=
  match peaks with
  | [] => Ret hash
  | p :: peaks' =>
    let* peakHash := GetDataAt file p in
    let hash' := if bytes_eqb peakHash ZERO_HASH then hash
                 else if bytes_eqb hash ZERO_HASH then peakHash
                 else HashParentWithIndex peakHash hash size in
    RootLoop file size peaks' hash'
  end.

(** src/PMMR/Common/MMRHashUtil.cpp:33-57 Root, pPruneList == nullptr *)
Definition Root (file : list bytes) (size : N) : outcome bytes :=
  if size =? 0 then Ret ZERO_HASH
  else RootLoop file size (rev (GetPeakIndices size)) ZERO_HASH.

(** src/PMMR/HeaderMMRImpl.cpp:54-72 AddHeader / src/PMMR/KernelMMR.cpp:71-77 ApplyKernel applied to a
    sequence of serialized leaves (the kernel data file is not part of this model). *)
Definition AppendAll (file : list bytes) (leaves : list bytes) : outcome (list bytes) :=
  fold_left (fun (acc : outcome (list bytes)) x => let* f := acc in AddHashes f x) leaves (Ret file).

(** src/PMMR/HeaderMMRImpl.cpp:43-52 HeaderMMR::Rewind(size) and src/PMMR/KernelMMR.cpp:52-57
    KernelMMR::Rewind(num_kernels): truncate the hash file to the position of leaf [num_leaves].
    Rewinding beyond the end throws (AppendOnlyFile::Rewind). *)
Definition RewindHashes (file : list bytes) (num_leaves : N) : outcome (list bytes) :=
  let mmrSize := lidx_position (LeafIndex_At num_leaves) in
  if mmrSize <=? GetSize file then Ret (firstn (N.to_nat mmrSize) file) else Throw.

(** src/PMMR/HeaderMMRImpl.cpp:74-82 HeaderMMR::Root(lastHeight): root of the MMR of the headers up to
    and including lastHeight *)
Definition HeaderRoot (file : list bytes) (lastHeight : N) : outcome bytes :=
  Root file (lidx_position (LeafIndex_At (add64 lastHeight 1))).

End MMRHash.
