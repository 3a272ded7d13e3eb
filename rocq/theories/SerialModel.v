(** Model of the byte reader and writer used by every wire and disk format. *)
From Verif Require Import Base Bytes FileModel.
Local Open Scope N_scope.

(** include/Core/Serialization/ByteBuffer.h:225-229. The protocol version is the number of the
    enumerator (include/Core/Enums/ProtocolVersion.h:5-11). *)
Record bytebuffer := mkBB { m_index : N; m_bytes : bytes; m_protocolVersion : N }.

(** A read takes the buffer and returns a value and the advanced buffer. *)
Definition reader (A : Type) := bytebuffer -> outcome (A * bytebuffer).
Definition rret {A} (a : A) : reader A := fun b => Ret (a, b).
Definition rthrow {A} : reader A := fun _ => Throw.
Definition rbind {A B} (r : reader A) (k : A -> reader B) : reader B :=
  fun b => obind (r b) (fun p => k (fst p) (snd p)).
Notation "'let!' x := r 'in' k" := (rbind r (fun x => k))
  (at level 200, x name, r at level 100, k at level 200).
Definition GetProtocolVersion : reader N := fun b => Ret (m_protocolVersion b, b).

(** ByteBuffer.h:196-206 (and the same check at 32, 51, 160, 172, 184, 212): the end of the read is
    computed in 64 bits and compared with the size. When the sum wraps, the check passes and an
    iterator outside the vector is formed: undefined behaviour ([Fault]). *)
Definition ReadVector (numBytes : N) : reader bytes := fun b =>
  if nlen (m_bytes b) <? add64 (m_index b) numBytes then Throw
  else if m_index b + numBytes <=? nlen (m_bytes b)
  then Ret (slice (m_bytes b) (m_index b) numBytes,
            mkBB (m_index b + numBytes) (m_bytes b) (m_protocolVersion b))
  else Fault.

(** ByteBuffer.h:29-46 on a little-endian machine (EndianHelper.h:17-26): reverse-copy [k] bytes, then
    reinterpret them in memory order. *)
Definition ReadBigEndian (k : nat) : reader N :=
  let! temp := ReadVector (N.of_nat k) in rret (le_value (rev temp)).
(** ByteBuffer.h:48-65 on a little-endian machine. *)
Definition ReadLittleEndian (k : nat) : reader N :=
  let! temp := ReadVector (N.of_nat k) in rret (le_value temp).

(** ByteBuffer.h:81-151. *)
Definition ReadU8 := ReadBigEndian 1.
Definition ReadU16 := ReadBigEndian 2.
Definition ReadU32 := ReadBigEndian 4.
Definition ReadU64 := ReadBigEndian 8.
Definition ReadU64_LE := ReadLittleEndian 8.
(** Two's complement reinterpretation of a [8*k]-bit word. *)
Definition to_signed (k : nat) (n : N) : Z :=
  let w := Z.of_N (256 ^ N.of_nat k) in
  if (Z.of_N n <? w / 2)%Z then Z.of_N n else (Z.of_N n - w)%Z.
Definition of_signed (k : nat) (z : Z) : N := Z.to_N (z mod Z.of_N (256 ^ N.of_nat k)).
Definition ReadSigned (k : nat) : reader Z := let! n := ReadBigEndian k in rret (to_signed k n).
Definition Read64 := ReadSigned 8.
Definition Read32 := ReadSigned 4.
Definition Read16 := ReadSigned 2.
Definition Read8 := ReadSigned 1.

(** ByteBuffer.h:181-194. *)
Definition ReadBigInteger (n : N) : reader bytes := ReadVector n.
(** ByteBuffer.h:208-221. *)
Definition ReadArray (n : N) : reader bytes := ReadVector n.

(** ByteBuffer.h:153-168. *)
Definition ReadVarStr : reader bytes :=
  let! stringLength := ReadU64 in
  if stringLength =? 0 then rret [] else ReadVector stringLength.
(** ByteBuffer.h:170-180. [&temp[0]] of an empty vector (size 0) is not modelled. *)
Definition ReadString (size : N) : reader bytes := ReadVector size.

(** ByteBuffer.h:223-226 ([noexcept]; the subtraction is in 64 bits). *)
Definition GetRemainingSize (b : bytebuffer) : N := sub64 (nlen (m_bytes b)) (m_index b).
(** ByteBuffer.h:228-233. *)
Definition ReadRemainingBytes : reader bytes := fun b =>
  let m_index' := add64 (m_index b) (GetRemainingSize b) in
  if (m_index b <=? m_index') && (m_index' <=? nlen (m_bytes b))
  then Ret (slice (m_bytes b) (m_index b) (m_index' - m_index b), mkBB m_index' (m_bytes b) (m_protocolVersion b))
  else Fault.

(** [for (i = 0; i < n; i++) v.push_back(read)]. *)
Fixpoint read_many {A} (r : reader A) (n : nat) : reader (list A) :=
  match n with
  | O => rret []
  | S m => let! x := r in let! xs := read_many r m in rret (x :: xs)
  end.

(** include/Core/Serialization/Serializer.h:36-49 on a little-endian machine: copy the object
    representation, append it reversed. A serializer is the list of bytes written so far; a write
    is the list of bytes it appends. *)
Definition Append (k : nat) (n : N) : bytes := rev (le_bytes k n).
(** Serializer.h:51-64. *)
Definition AppendLittleEndian (k : nat) (n : N) : bytes := le_bytes k n.
Definition AppendSigned (k : nat) (z : Z) : bytes := Append k (of_signed k z).
(** Serializer.h:149-156. *)
Inductive ESerializeLength := LenU32 | LenU64 | LenNone.
Definition AppendLength (l : ESerializeLength) (length : N) : bytes :=
  match l with LenU64 => Append 8 length | LenU32 => Append 4 (length mod W32) | LenNone => [] end.
(** Serializer.h:84-96. *)
Definition AppendByteVector (data : bytes) (l : ESerializeLength) : bytes := AppendLength l (nlen data) ++ data.
(** Serializer.h:105-110. *)
Definition AppendVarStr (s : bytes) : bytes := AppendLength LenU64 (nlen s) ++ s.
(** Serializer.h:119-124. *)
Definition AppendBigInteger (x : bytes) : bytes := x.
