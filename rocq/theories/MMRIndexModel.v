(** Model of the MMR position arithmetic:
    include/Common/Util/BitUtil.h, src/PMMR/Common/Index.cpp, include/PMMR/Common/Index.h,
    include/PMMR/Common/LeafIndex.h, src/PMMR/Common/MMRUtil.cpp.
    All quantities are uint64_t, modelled as [N] with explicit wrap. *)
From Verif Require Import Base.
Local Open Scope N_scope.

(** include/Common/Util/BitUtil.h:9-19 FillOnesToRight *)
Definition FillOnesToRight (input : N) : N :=
  let x := input in
  let x := N.lor x (N.shiftr x 1) in
  let x := N.lor x (N.shiftr x 2) in
  let x := N.lor x (N.shiftr x 4) in
  let x := N.lor x (N.shiftr x 8) in
  let x := N.lor x (N.shiftr x 16) in
  let x := N.lor x (N.shiftr x 32) in
  x.

(** include/Common/Util/BitUtil.h:21-31 CountBitsSet.
    The [while (n)] loop runs at most 64 times on a uint64_t: the fuel is 64, and
    [n] has become 0 when it is exhausted.  [count] is a uint8_t. *)
Fixpoint CountBitsSet_loop (fuel : nat) (n count : N) : N :=
  match fuel with
  | O => count
  | S f => if n =? 0 then count
           else CountBitsSet_loop f (N.shiftr n 1) ((count + N.land n 1) mod W8)
  end.
Definition CountBitsSet (input : N) : N := CountBitsSet_loop 64 input 0.

(** src/PMMR/Common/Index.cpp:52-65 Index::CalculateHeight.
    [peakSize] is a uint64_t halved every round, so 64 rounds reach 0. *)
Fixpoint CalculateHeight_loop (fuel : nat) (peakSize height : N) : N :=
  match fuel with
  | O => height
  | S f => if peakSize =? 0 then height
           else CalculateHeight_loop f (N.shiftr peakSize 1)
                  (if peakSize <=? height then height - peakSize else height)
  end.
Definition CalculateHeight (position : N) : N :=
  CalculateHeight_loop 64 (FillOnesToRight position) position.

(** src/PMMR/Common/Index.cpp:67-83 Index::CalculateLeafIndex.
    [(peakSize + 1) / 2] is computed in uint64_t and can wrap. *)
Fixpoint CalculateLeafIndex_loop (fuel : nat) (peakSize numLeft leafIndex : N) : N :=
  match fuel with
  | O => leafIndex
  | S f => if peakSize =? 0 then leafIndex
           else if peakSize <=? numLeft
                then CalculateLeafIndex_loop f (N.shiftr peakSize 1) (numLeft - peakSize)
                       (add64 leafIndex (add64 peakSize 1 / 2))
                else CalculateLeafIndex_loop f (N.shiftr peakSize 1) numLeft leafIndex
  end.
Definition CalculateLeafIndex (position : N) : N :=
  CalculateLeafIndex_loop 64 (FillOnesToRight position) position 0.

(** include/PMMR/Common/Index.h class Index: m_position, m_height *)
Record Index := mkIndex { idx_position : N; idx_height : N }.

(** src/PMMR/Common/Index.cpp:4-7 Index::At *)
Definition Index_At (position : N) : Index := mkIndex position (CalculateHeight position).

(** include/PMMR/Common/Index.h:51 IsLeaf *)
Definition IsLeaf (i : Index) : bool := idx_height i =? 0.

(** include/PMMR/Common/Index.h:71 GetNext *)
Definition GetNext (i : Index) : Index := Index_At (add64 (idx_position i) 1).

(** [1ULL << k]: undefined for k >= 64 *)
Definition shl1_64 (k : N) : outcome N := if k <? 64 then Ret (N.shiftl 1 k) else Fault.

(** src/PMMR/Common/Index.cpp:9-14 Index::GetLeafIndex (asserts IsLeaf) *)
Definition GetLeafIndex (i : Index) : outcome N :=
  if IsLeaf i then Ret (CalculateLeafIndex (idx_position i)) else Fault.

(** src/PMMR/Common/Index.cpp:16-25 Index::GetParent *)
Definition GetParent (i : Index) : outcome Index :=
  if CalculateHeight (add64 (idx_position i) 1) =? add64 (idx_height i) 1
  then Ret (mkIndex (add64 (idx_position i) 1) (add64 (idx_height i) 1))
  else let* s := shl1_64 (add64 (idx_height i) 1) in
       Ret (mkIndex (add64 (idx_position i) s) (add64 (idx_height i) 1)).

(** src/PMMR/Common/Index.cpp:27-36 Index::GetSibling *)
Definition GetSibling (i : Index) : outcome Index :=
  if CalculateHeight (add64 (idx_position i) 1) =? add64 (idx_height i) 1
  then let* s := shl1_64 (add64 (idx_height i) 1) in
       Ret (mkIndex (sub64 (add64 (idx_position i) 1) s) (idx_height i))
  else let* s := shl1_64 (add64 (idx_height i) 1) in
       Ret (mkIndex (sub64 (add64 (idx_position i) s) 1) (idx_height i)).

(** src/PMMR/Common/Index.cpp:38-43 Index::GetLeftChild (asserts height > 0) *)
Definition GetLeftChild (i : Index) : outcome Index :=
  if idx_height i =? 0 then Fault
  else let* s := shl1_64 (idx_height i) in
       Ret (mkIndex (sub64 (idx_position i) s) (idx_height i - 1)).

(** src/PMMR/Common/Index.cpp:45-50 Index::GetRightChild (asserts height > 0) *)
Definition GetRightChild (i : Index) : outcome Index :=
  if idx_height i =? 0 then Fault
  else Ret (mkIndex (sub64 (idx_position i) 1) (idx_height i - 1)).

(** include/PMMR/Common/LeafIndex.h class LeafIndex *)
Record LeafIndex := mkLeafIndex { lidx_leaf : N; lidx_position : N }.

(** include/PMMR/Common/LeafIndex.h:19-22 LeafIndex::At *)
Definition LeafIndex_At (leafIndex : N) : LeafIndex :=
  mkLeafIndex leafIndex (sub64 (mul64 2 leafIndex) (CountBitsSet leafIndex)).

(** include/PMMR/Common/LeafIndex.h:24-32 LeafIndex::AtPos / From *)
Definition LeafIndex_AtPos (mmr_idx : N) : outcome LeafIndex :=
  let* l := GetLeafIndex (Index_At mmr_idx) in Ret (mkLeafIndex l mmr_idx).

(** include/PMMR/Common/LeafIndex.h:72-73 Next / Prev *)
Definition LeafIndex_Next (l : LeafIndex) : LeafIndex := LeafIndex_At (add64 (lidx_leaf l) 1).
Definition LeafIndex_Prev (l : LeafIndex) : LeafIndex := LeafIndex_At (sub64 (lidx_leaf l) 1).

(** src/PMMR/Common/MMRUtil.cpp:9-32 MMRUtil::GetPeakIndices: the while loop.
    Returns the accumulated indices (in push order) and numLeft. *)
Fixpoint GetPeakIndices_loop (fuel : nat) (peakSize numLeft sumPrevPeaks : N) (acc : list N)
  : list N * N :=
  match fuel with
  | O => (acc, numLeft)
  | S f => if peakSize =? 0 then (acc, numLeft)
           else if peakSize <=? numLeft
                then GetPeakIndices_loop f (N.shiftr peakSize 1) (numLeft - peakSize)
                       (add64 sumPrevPeaks peakSize)
                       (acc ++ [sub64 (add64 sumPrevPeaks peakSize) 1])
                else GetPeakIndices_loop f (N.shiftr peakSize 1) numLeft sumPrevPeaks acc
  end.
Definition GetPeakIndices (size : N) : list N :=
  if 0 <? size
  then let '(peaks, numLeft) := GetPeakIndices_loop 64 (FillOnesToRight size) size 0 [] in
       if 0 <? numLeft then [] else peaks
  else [].
