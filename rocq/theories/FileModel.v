(** Model of the append-only record file (AppendOnlyFile + MappedFile + DataFile). *)
From Verif Require Import Base Bytes.
Local Open Scope N_scope.

Definition nlen {A} (l : list A) : N := N.of_nat (length l).
(** Bytes [pos, pos+n) of [l]; the caller checks that they exist. *)
Definition slice {A} (l : list A) (pos n : N) : list A := firstn (N.to_nat n) (skipn (N.to_nat pos) l).

(** include/Core/File/AppendOnlyFile.h:39-44, with the file on disk ([disk]) added.
    The memory mapping of [m_pMappedFile] always shows [disk] (it is unmapped before each
    write, MappedFile_Nix.cpp:44, and mapped again on the next read, 69-72). *)
Record aof := mkAof {
  disk : bytes;
  m_bufferIndex : N;
  m_fileSize : N;
  m_buffer : bytes
}.

(** src/Core/File/AppendOnlyFile.cpp:5-10. *)
Definition AOF_Load (file : bytes) : aof := mkAof file (nlen file) (nlen file) [].

(** src/Core/File/MappedFile_Nix.cpp:40-63: truncate the file to [startIndex] and append.
    POSIX truncate to a larger size extends with zero bytes. I/O errors are not modelled
    here (see CrashModel.v for interruption points). *)
Definition truncate (file : bytes) (n : N) : bytes :=
  if n <=? nlen file then firstn (N.to_nat n) file
  else file ++ repeat 0 (N.to_nat (n - nlen file)).
Definition Mapped_Write (file : bytes) (startIndex : N) (data : bytes) : bytes :=
  truncate file startIndex ++ data.

(** src/Core/File/AppendOnlyFile.cpp:12-34. *)
Definition AOF_Flush (s : aof) : bool * aof :=
  if (m_fileSize s =? m_bufferIndex s) && (nlen (m_buffer s) =? 0) then (true, s)
  else if m_fileSize s <? m_bufferIndex s then (false, s)
  else
    let size := m_bufferIndex s + nlen (m_buffer s) in
    (true, mkAof (Mapped_Write (disk s) (m_bufferIndex s) (m_buffer s)) size size []).

(** src/Core/File/AppendOnlyFile.cpp:36-39. *)
Definition AOF_Append (s : aof) (data : bytes) : aof :=
  mkAof (disk s) (m_bufferIndex s) (m_fileSize s) (m_buffer s ++ data).

(** src/Core/File/AppendOnlyFile.cpp:41-65. *)
Definition AOF_Rewind (s : aof) (nextPosition : N) : bool * aof :=
  if m_bufferIndex s + nlen (m_buffer s) <? nextPosition then (false, s)
  else if nextPosition <=? m_bufferIndex s then
    (true, mkAof (disk s) nextPosition (m_fileSize s) [])
  else
    (true, mkAof (disk s) (m_bufferIndex s) (m_fileSize s)
             (firstn (N.to_nat (nextPosition - m_bufferIndex s)) (m_buffer s))).

(** src/Core/File/AppendOnlyFile.cpp:67-71. *)
Definition AOF_Discard (s : aof) : aof := mkAof (disk s) (m_fileSize s) (m_fileSize s) [].

(** src/Core/File/AppendOnlyFile.cpp:73-76. *)
Definition AOF_GetSize (s : aof) : N := m_bufferIndex s + nlen (m_buffer s).

(** src/Core/File/AppendOnlyFile.cpp:78-96 and MappedFile_Nix.cpp:65-78. There is no bounds
    check: iterators outside the mapping or the buffer are undefined behaviour ([Fault]). *)
Definition AOF_Read (s : aof) (position numBytes : N) : outcome bytes :=
  if position <? m_bufferIndex s then
    if position + numBytes <=? nlen (disk s) then Ret (slice (disk s) position numBytes) else Fault
  else
    let firstBufferIndex := position - m_bufferIndex s in
    if firstBufferIndex + numBytes <=? nlen (m_buffer s)
    then Ret (slice (m_buffer s) firstBufferIndex numBytes) else Fault.

(** include/Core/File/DataFile.h:11-95 and Core/Traits/Batchable.h (dirty flag). *)
Record dfile := mkDfile { m_pFile : aof; m_dirty : bool }.

Section DataFile.
Variable NUM_BYTES : N.

(** DataFile.h:19-25. *)
Definition DF_Load (file : bytes) : dfile := mkDfile (AOF_Load file) false.
(** DataFile.h:27-38. *)
Definition DF_Commit (d : dfile) : outcome dfile :=
  if m_dirty d then
    let '(ok, f) := AOF_Flush (m_pFile d) in
    if ok then Ret (mkDfile f false) else Throw
  else Ret (mkDfile (m_pFile d) false).
(** DataFile.h:40-48. *)
Definition DF_Rollback (d : dfile) : dfile :=
  mkDfile (if m_dirty d then AOF_Discard (m_pFile d) else m_pFile d) false.
(** DataFile.h:50-57: returns whether the call threw, and the object afterwards. *)
Definition DF_Rewind (d : dfile) (size : N) : bool * dfile :=
  let '(ok, f) := AOF_Rewind (m_pFile d) (mul64 size NUM_BYTES) in (ok, mkDfile f true).
(** DataFile.h:59-62. *)
Definition DF_GetSize (d : dfile) : N := AOF_GetSize (m_pFile d) / NUM_BYTES.
(** DataFile.h:64-73. *)
Definition DF_GetDataAt (d : dfile) (position : N) : outcome bytes :=
  AOF_Read (m_pFile d) (mul64 position NUM_BYTES) NUM_BYTES.
(** DataFile.h:75-85. *)
Definition DF_AddData (d : dfile) (data : bytes) : dfile := mkDfile (AOF_Append (m_pFile d) data) true.

(** One call on a data file, and what the caller sees. *)
Inductive fop := FAdd (data : bytes) | FRewind (size : N) | FCommit | FRollback | FGet (pos : N) | FSize.
Inductive fres := RDone | RThrow | RBytes (b : bytes) | RNum (n : N) | RUndefined.
Definition DF_step (d : dfile) (op : fop) : fres * dfile :=
  match op with
  | FAdd data => (RDone, DF_AddData d data)
  | FRewind size => let '(ok, d') := DF_Rewind d size in (if ok then RDone else RThrow, d')
  | FCommit => match DF_Commit d with Ret d' => (RDone, d') | Throw => (RThrow, d) | Fault => (RUndefined, d) end
  | FRollback => (RDone, DF_Rollback d)
  | FGet pos => match DF_GetDataAt d pos with Ret b => (RBytes b, d) | Throw => (RThrow, d) | Fault => (RUndefined, d) end
  | FSize => (RNum (DF_GetSize d), d)
  end.
(** A sequence of calls: results in order and the final object. *)
Fixpoint DF_run (d : dfile) (ops : list fop) : list fres * dfile :=
  match ops with
  | [] => ([], d)
  | op :: ops' => let '(r, d1) := DF_step d op in let '(rs, d2) := DF_run d1 ops' in (r :: rs, d2)
  end.
End DataFile.
