(** Model of the bitmap file that stores which MMR leaves are unspent. *)
From Verif Require Import Base Bytes MMRIndexModel MMRHashModel FileModel.
Local Open Scope N_scope.

(** [std::map<uint64_t, uint8_t>] as a key-sorted association list. *)
Definition bmap := list (N * N).
Fixpoint map_find (k : N) (m : bmap) : option N :=
  match m with
  | [] => None
  | (k', v) :: m' => if k =? k' then Some v else map_find k m'
  end.
(** [m[k] = v]. *)
Fixpoint map_put (k v : N) (m : bmap) : bmap :=
  match m with
  | [] => [(k, v)]
  | (k', v') :: m' =>
      if k <? k' then (k, v) :: m
      else if k =? k' then (k, v) :: m'
      else (k', v') :: map_put k v m'
  end.
(** [m.crbegin()->first]. *)
Fixpoint map_last_key (m : bmap) : N :=
  match m with
  | [] => 0
  | [(k, _)] => k
  | _ :: m' => map_last_key m'
  end.

(** include/Core/File/BitmapFile.h:295-298. [m_mmap] shows the file's contents: it is mapped at
    load (208-219) and remapped after each commit that writes (56-69); an empty file stays
    unmapped, with size 0. *)
Record bitmapfile := mkBitmap { bdisk : bytes; m_modifiedBytes : bmap; bdirty : bool }.

(** BitmapFile.h:184-231 for a file already in the current format. *)
Definition BF_Load (file : bytes) : bitmapfile := mkBitmap file [] false.

(** BitmapFile.h:283-286. *)
Definition BitToByte (bit : N) : N := N.shiftl 1 (7 - bit) mod W8.

(** BitmapFile.h:166-179. *)
Definition GetByte (b : bitmapfile) (byteIndex : N) : N :=
  match map_find byteIndex (m_modifiedBytes b) with
  | Some v => v
  | None => if byteIndex <? nlen (bdisk b) then nth (N.to_nat byteIndex) (bdisk b) 0 else 0
  end.

(** BitmapFile.h:86-89 (uint8_t converted to bool). *)
Definition IsSet (b : bitmapfile) (leafIndex : N) : bool :=
  negb (N.land (GetByte b (leafIndex / 8)) (BitToByte (leafIndex mod 8)) =? 0).

(** BitmapFile.h:91-97. *)
Definition BF_Set (b : bitmapfile) (leafIndex : N) : bitmapfile :=
  let byte := GetByte b (leafIndex / 8) in
  let byte := N.lor byte (BitToByte (leafIndex mod 8)) in
  mkBitmap (bdisk b) (map_put (leafIndex / 8) byte (m_modifiedBytes b)) true.

(** BitmapFile.h:109-115. *)
Definition BF_Unset (b : bitmapfile) (leafIndex : N) : bitmapfile :=
  let byte := GetByte b (leafIndex / 8) in
  let byte := N.land byte (N.lxor 255 (BitToByte (leafIndex mod 8))) in
  mkBitmap (bdisk b) (map_put (leafIndex / 8) byte (m_modifiedBytes b)) true.

(** BitmapFile.h:99-107 and 117-125: members of the Roaring bitmap in increasing order; each is a
    32-bit value; [current_value - 1] is computed in 32 bits. *)
Definition roaring_index (v : N) : Index := Index_At ((v + (W32 - 1)) mod W32).
Definition BF_SetRoaring (b : bitmapfile) (positions : list N) : bitmapfile :=
  fold_left (fun b v => if IsLeaf (roaring_index v)
                        then BF_Set b (CalculateLeafIndex (idx_position (roaring_index v))) else b) positions b.
Definition BF_UnsetRoaring (b : bitmapfile) (positions : list N) : bitmapfile :=
  fold_left (fun b v => if IsLeaf (roaring_index v)
                        then BF_Unset b (CalculateLeafIndex (idx_position (roaring_index v))) else b) positions b.

(** BitmapFile.h:127-130 with 300-301: both constants are [false]. *)
Definition s_true : bool := false.
Definition s_false : bool := false.
Definition BF_operator_index (b : bitmapfile) (leafIndex : N) : bool := if IsSet b leafIndex then s_true else s_false.

(** BitmapFile.h:265-279. *)
Definition GetNumBytes (b : bitmapfile) : N :=
  let size := match m_modifiedBytes b with [] => 0 | m => map_last_key m + 1 end in
  match bdisk b with [] => size | d => N.max size (nlen d + 1) end.

(** The values lo, lo+1, ..., hi-1. *)
Definition N_range (lo hi : N) : list N := map (fun k => lo + N.of_nat k) (seq 0 (N.to_nat (hi - lo))).

(** BitmapFile.h:132-144. *)
Definition BF_Rewind (b : bitmapfile) (numLeaves : N) (leavesToAdd : list N) : bitmapfile :=
  let b1 := fold_left BF_Set leavesToAdd b in
  let currentSize := GetNumBytes b1 * 8 in
  fold_left BF_Unset (N_range numLeaves currentSize) b1.

(** Writing one byte at an offset, extending the file with zeros when needed
    (seekp beyond the end followed by write). *)
Definition write_byte (f : bytes) (k v : N) : bytes :=
  if k <? nlen f then firstn (N.to_nat k) f ++ v :: skipn (S (N.to_nat k)) f
  else f ++ repeat 0 (N.to_nat (k - nlen f)) ++ [v].
(** BitmapFile.h:52-78 (I/O errors are ignored by the code and not modelled). *)
Definition BF_Commit (b : bitmapfile) : bitmapfile :=
  match m_modifiedBytes b with
  | [] => b
  | m => mkBitmap (fold_left (fun f kv => write_byte f (fst kv) (snd kv)) m (bdisk b)) [] false
  end.
(** BitmapFile.h:80-84. *)
Definition BF_Rollback (b : bitmapfile) : bitmapfile := mkBitmap (bdisk b) [] false.

(** BitmapFile.h:43-50. *)
Definition BF_Create (file : bytes) (bitmap : list N) : bitmapfile := BF_Commit (BF_SetRoaring (BF_Load file) bitmap).

(** BitmapFile.h:146-164: the values passed to [bitmap.add], in order. The byte index [i] is a
    uint32_t, so [i * 8 + j] and the value added are 32-bit. *)
Definition ToRoaring (b : bitmapfile) : list N :=
  flat_map (fun i =>
    flat_map (fun j =>
      if 0 <? N.land (GetByte b i) (BitToByte j)
      then [ (add64 (lidx_position (LeafIndex_At ((i * 8 + j) mod W32))) 1) mod W32 ]
      else []) [0;1;2;3;4;5;6;7])
    (N_range 0 (GetNumBytes b mod W32)).

Inductive bop := BSet (i : N) | BUnset (i : N) | BRewind (n : N) (add : list N) | BCommit | BRollback
               | BSetRoaring (l : list N) | BUnsetRoaring (l : list N).
Definition BF_step (b : bitmapfile) (o : bop) : bitmapfile :=
  match o with
  | BSet i => BF_Set b i
  | BUnset i => BF_Unset b i
  | BRewind n add => BF_Rewind b n add
  | BCommit => BF_Commit b
  | BRollback => BF_Rollback b
  | BSetRoaring l => BF_SetRoaring b l
  | BUnsetRoaring l => BF_UnsetRoaring b l
  end.

(** src/PMMR/Common/LeafSet.h:57-77: root of an MMR over 128-byte chunks of the bitmap, built in a
    scratch hash file that is emptied first ([Rewind(0)], line 61) and never committed. *)
Definition leafset_chunk (b : bitmapfile) (i : N) : bytes := map (GetByte b) (N_range (i * 128) (i * 128 + 128)).
Definition leafset_chunks (b : bitmapfile) (numOutputs : N) : list bytes :=
  map (leafset_chunk b) (N_range 0 (add64 numOutputs 1023 / 1024)).
Definition LeafSet_Root (Blake2b : bytes -> bytes) (b : bitmapfile) (numOutputs : N) : outcome bytes :=
  let* f := AppendAll Blake2b [] (leafset_chunks b numOutputs) in
  Root Blake2b f (MMRHashModel.GetSize f).
