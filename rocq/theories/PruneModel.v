(** Model of the prune list and of reads through it. *)
From Verif Require Import Base Bytes MMRIndexModel MMRHashModel FileModel BitmapModel.
Local Open Scope N_scope.

(** A Roaring bitmap (deps, third party) is the ascending list of its values; its API takes 32-bit
    values, so arguments are truncated. *)
Definition roaring := list N.
Definition contains (r : roaring) (x : N) : bool := existsb (N.eqb (x mod W32)) r.
Definition rank (r : roaring) (x : N) : N := nlen (filter (fun y => y <=? x mod W32) r).
Definition maximum (r : roaring) : N := fold_left N.max r 0.

(** src/PMMR/Common/PruneList.h:44-49. Roots are stored 1-based. *)
Record prunelist := mkPL { m_prunedRoots : roaring; m_prunedCache : roaring; m_shiftCache : list N; m_leafShiftCache : list N }.

(** src/PMMR/Common/PruneList.cpp:88-108. *)
Definition PL_GetShift (pl : prunelist) (pos : N) : N :=
  match m_prunedRoots pl with
  | [] => 0
  | _ => match m_shiftCache pl with
         | [] => 0
         | _ => let index := rank (m_prunedRoots pl) (add64 pos 1) in
                if index =? 0 then 0
                else if nlen (m_shiftCache pl) <? index then last (m_shiftCache pl) 0
                else nth (N.to_nat (index - 1)) (m_shiftCache pl) 0
         end
  end.
(** PruneList.cpp:110-130. *)
Definition PL_GetLeafShift (pl : prunelist) (pos : N) : N :=
  match m_prunedRoots pl with
  | [] => 0
  | _ => let index := rank (m_prunedRoots pl) (add64 pos 1) in
         if index =? 0 then 0
         else match m_leafShiftCache pl with
              | [] => 0
              | _ => if nlen (m_leafShiftCache pl) <? index then last (m_leafShiftCache pl) 0
                     else nth (N.to_nat (index - 1)) (m_leafShiftCache pl) 0
              end
  end.
(** PruneList.cpp:83-86. *)
Definition PL_GetTotalShift (pl : prunelist) : N := PL_GetShift pl (maximum (m_prunedRoots pl)).

(** PruneList.cpp:143-150, the climb from a position to the first pruned root above it. *)
Fixpoint climb (fuel : nat) (roots : roaring) (max : N) (parent_idx : Index) : bool :=
  if idx_position parent_idx <? max then
    if contains roots (add64 (idx_position parent_idx) 1) then true
    else match fuel with
         | O => false
         | S f => match GetParent parent_idx with Ret p => climb f roots max p | _ => false end
         end
  else false.
(** PruneList.cpp:132-154. *)
Definition BuildPrunedCache (roots : roaring) : roaring :=
  match roots with
  | [] => []
  | _ => map (fun p => add64 p 1 mod W32)
             (filter (fun p => climb (N.to_nat (maximum roots)) roots (maximum roots) (Index_At p)) (N_range 0 (maximum roots)))
  end.
(** PruneList.cpp:156-183. *)
Definition shift_step (pl : prunelist) (pos : N) : prunelist :=
  if contains (m_prunedRoots pl) (add64 pos 1) then
    let height := CalculateHeight pos in
    let previousShift := PL_GetShift pl (sub64 pos 1) in
    let currentShift := mul64 2 (sub64 (N.shiftl 1 height mod W64) 1) in
    let pl1 := mkPL (m_prunedRoots pl) (m_prunedCache pl) (m_shiftCache pl ++ [add64 previousShift currentShift]) (m_leafShiftCache pl) in
    let previousLeafShift := PL_GetLeafShift pl1 (sub64 pos 1) in
    let currentLeafShift := if height =? 0 then 0 else N.shiftl 1 height mod W64 in
    mkPL (m_prunedRoots pl) (m_prunedCache pl) (m_shiftCache pl1) (m_leafShiftCache pl ++ [add64 previousLeafShift currentLeafShift])
  else pl.
Definition BuildShiftCaches (pl : prunelist) : prunelist :=
  match m_prunedRoots pl with
  | [] => pl
  | _ => fold_left shift_step (N_range 0 (maximum (m_prunedRoots pl))) (mkPL (m_prunedRoots pl) (m_prunedCache pl) [] [])
  end.
(** PruneList.cpp:14-27 Load, given the roots in the file (none when there is no file). *)
Definition PL_Load (roots : roaring) : prunelist := BuildShiftCaches (mkPL roots (BuildPrunedCache roots) [] []).

(** PruneList.cpp:68-81. *)
Definition IsPruned (pl : prunelist) (pos : N) : bool := contains (m_prunedCache pl) (add64 pos 1).
Definition IsPrunedRoot (pl : prunelist) (pos : N) : bool := contains (m_prunedRoots pl) (add64 pos 1).
Definition IsCompacted (pl : prunelist) (pos : N) : bool := IsPruned pl pos && negb (IsPrunedRoot pl pos).

(** src/PMMR/Common/MMRHashUtil.cpp:59-73 GetHashAt with a prune list. *)
Definition P_GetHashAt (pl : prunelist) (file : list bytes) (pos : N) : outcome bytes :=
  if IsCompacted pl pos then Throw else GetDataAt file (sub64 pos (PL_GetShift pl pos)).
(** src/PMMR/Common/PruneableMMR.h:87-90. *)
Definition P_GetSize (pl : prunelist) (file : list bytes) : N := add64 (PL_GetTotalShift pl) (GetSize file).
(** PruneableMMR.h:117-136 for a leaf in the leaf set: its record. *)
Definition P_GetAt (pl : prunelist) (data : list bytes) (l : LeafIndex) : outcome bytes :=
  GetDataAt data (sub64 (lidx_leaf l) (PL_GetLeafShift pl (lidx_position l))).
(** PruneableMMR.h:67-75: the sizes the two files are cut to. *)
Definition P_RewindHashes (pl : prunelist) (file : list bytes) (num_leaves : N) : outcome (list bytes) :=
  let pos := lidx_position (LeafIndex_At num_leaves) in
  let n := sub64 pos (PL_GetShift pl (sub64 pos 1)) in
  if n <=? GetSize file then Ret (firstn (N.to_nat n) file) else Throw.
Definition P_RewindData (pl : prunelist) (data : list bytes) (num_leaves : N) : outcome (list bytes) :=
  let pos := lidx_position (LeafIndex_At num_leaves) in
  let n := sub64 num_leaves (PL_GetLeafShift pl (sub64 pos 1)) in
  if n <=? GetSize data then Ret (firstn (N.to_nat n) data) else Throw.

Section PMMRHash.
Variable Blake2b : bytes -> bytes.
(** MMRHashUtil.cpp:24-30 with a prune list. *)
Fixpoint P_AddParents (fuel : nat) (pl : prunelist) (file : list bytes) (mmr_idx : Index) : outcome (list bytes) :=
  if IsLeaf mmr_idx then Ret file
  else match fuel with
       | O => Fault
       | S f =>
         let* lc := GetLeftChild mmr_idx in
         let* leftHash := P_GetHashAt pl file (idx_position lc) in
         let* rc := GetRightChild mmr_idx in
         let* rightHash := P_GetHashAt pl file (idx_position rc) in
         P_AddParents f pl (file ++ [HashParentWithIndex Blake2b leftHash rightHash (idx_position mmr_idx)]) (GetNext mmr_idx)
       end.
(** MMRHashUtil.cpp:8-31: the position is the file size plus the total shift (lines 13-18). *)
Definition P_AddHashes (pl : prunelist) (file : list bytes) (serializedLeaf : bytes) : outcome (list bytes) :=
  let position := add64 (GetSize file) (PL_GetTotalShift pl) in
  P_AddParents 64 pl (file ++ [HashLeafWithIndex Blake2b serializedLeaf position]) (Index_At (add64 position 1)).
(** PruneableMMR.h:38-52 Append, for a sequence of leaves (hash file only). *)
Definition P_AppendAll (pl : prunelist) (file : list bytes) (leaves : list bytes) : outcome (list bytes) :=
  fold_left (fun (acc : outcome (list bytes)) x => let* f := acc in P_AddHashes pl f x) leaves (Ret file).
(** MMRHashUtil.cpp:33-57. *)
Fixpoint P_RootLoop (pl : prunelist) (file : list bytes) (size : N) (peaks : list N) (hash : bytes) : outcome bytes :=
  match peaks with
  | [] => Ret hash
  | p :: peaks' =>
    let* peakHash := P_GetHashAt pl file p in
    let hash' := if bytes_eqb peakHash ZERO_HASH then hash
                 else if bytes_eqb hash ZERO_HASH then peakHash
                 else HashParentWithIndex Blake2b peakHash hash size in
    P_RootLoop pl file size peaks' hash'
  end.
Definition P_Root (pl : prunelist) (file : list bytes) (size : N) : outcome bytes :=
  if size =? 0 then Ret ZERO_HASH else P_RootLoop pl file size (rev (GetPeakIndices size)) ZERO_HASH.
End PMMRHash.
