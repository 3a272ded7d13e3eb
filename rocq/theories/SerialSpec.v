(** Specification vocabulary for the serialization properties (C10-C15). *)
From Verif Require Import Base Bytes FileModel SerialModel.
Local Open Scope N_scope.

(** Big-endian encoding of [n] on [k] bytes is [be_bytes k n] (Bytes.v): most significant byte first. *)

(** [decodes v r bs a]: at protocol version [v], reader [r] turns the bytes [bs] into [a], wherever
    they start and whatever follows, consuming exactly [bs]. *)
Definition decodes {A} (v : N) (r : reader A) (bs : bytes) (a : A) : Prop :=
  forall pre suf, N.of_nat (length (pre ++ bs ++ suf)) < W64 ->
    r (mkBB (N.of_nat (length pre)) (pre ++ bs ++ suf) v) =
      Ret (a, mkBB (N.of_nat (length pre) + N.of_nat (length bs)) (pre ++ bs ++ suf) v).

(** A buffer as the code can have it: the cursor is inside, and the vector is no longer than the
    largest vector (2^63 - 1). *)
Definition good_buffer (b : bytebuffer) : Prop :=
  m_index b <= N.of_nat (length (m_bytes b)) /\ N.of_nat (length (m_bytes b)) < 2 ^ 63.

(** [safe r]: on every such buffer, [r] returns a value having moved the cursor forward inside the
    same bytes, or throws; it never reads outside. *)
Definition safe {A} (r : reader A) : Prop :=
  forall b, good_buffer b -> is_bytes (m_bytes b) ->
    match r b with
    | Ret (_, b') => m_bytes b' = m_bytes b /\ m_protocolVersion b' = m_protocolVersion b /\
                     m_index b <= m_index b' <= N.of_nat (length (m_bytes b))
    | Throw => True
    | Fault => False
    end.

(** [exact r enc]: whatever [r] accepts, it consumed exactly the encoding of what it returned. *)
Definition exact {A} (r : reader A) (enc : N -> A -> bytes) : Prop :=
  forall b a b', good_buffer b -> is_bytes (m_bytes b) -> r b = Ret (a, b') ->
    skipn (N.to_nat (m_index b)) (m_bytes b) = enc (m_protocolVersion b) a ++ skipn (N.to_nat (m_index b')) (m_bytes b).

(** Fields of a message and how they are written. *)
Inductive field :=
| FUInt (k : nat) (n : N)      (* unsigned integer on k bytes, big endian *)
| FInt (k : nat) (z : Z)       (* signed integer on k bytes, big endian two's complement *)
| FUInt64LE (n : N)            (* little endian *)
| FVarStr (s : list N)         (* 64-bit length and the characters *)
| FRaw (s : list N).           (* fixed-size block *)
Definition field_ok (f : field) : Prop :=
  match f with
  | FUInt k n => (k <= 8)%nat /\ n < 256 ^ N.of_nat k
  | FInt k z => (1 <= k <= 8)%nat /\ (- 2 ^ (8 * Z.of_nat k - 1) <= z < 2 ^ (8 * Z.of_nat k - 1))%Z
  | FUInt64LE n => n < W64
  | FVarStr s => True
  | FRaw s => True
  end.
(** What the bytes must be. *)
Definition field_bytes (f : field) : bytes :=
  match f with
  | FUInt k n => be_bytes k n
  | FInt k z => be_bytes k (Z.to_N (z mod 2 ^ (8 * Z.of_nat k)))
  | FUInt64LE n => rev (be_bytes 8 n)
  | FVarStr s => be_bytes 8 (N.of_nat (length s)) ++ s
  | FRaw s => s
  end.
(** The kind of a field: what the reader has to know. *)
Inductive kind := KUInt (k : nat) | KInt (k : nat) | KUInt64LE | KVarStr | KRaw (n : nat).
Definition kind_of (f : field) : kind :=
  match f with
  | FUInt k _ => KUInt k | FInt k _ => KInt k | FUInt64LE _ => KUInt64LE | FVarStr _ => KVarStr | FRaw s => KRaw (length s)
  end.
(** The calls made on the serializer and on the byte buffer for each kind. *)
Definition write_field (f : field) : bytes :=
  match f with
  | FUInt k n => Append k n
  | FInt k z => AppendSigned k z
  | FUInt64LE n => AppendLittleEndian 8 n
  | FVarStr s => AppendVarStr s
  | FRaw s => AppendByteVector s LenNone
  end.
Definition read_field (k : kind) : reader field :=
  match k with
  | KUInt k => let! n := ReadBigEndian k in rret (FUInt k n)
  | KInt k => let! z := ReadSigned k in rret (FInt k z)
  | KUInt64LE => let! n := ReadU64_LE in rret (FUInt64LE n)
  | KVarStr => let! s := ReadVarStr in rret (FVarStr s)
  | KRaw n => let! s := ReadVector (N.of_nat n) in rret (FRaw s)
  end.
Fixpoint read_fields (ks : list kind) : reader (list field) :=
  match ks with
  | [] => rret []
  | k :: ks => let! f := read_field k in let! fs := read_fields ks in rret (f :: fs)
  end.
