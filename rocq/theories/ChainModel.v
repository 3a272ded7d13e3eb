(** Model of the candidate and confirmed chains (lists of block hashes by height) and of the chain
    store that holds both. *)
From Verif Require Import Base Bytes FileModel.
Local Open Scope N_scope.

(** include/BlockChain/BlockIndex.h: hash and height of a block. *)
Definition BlockIndex := (bytes * N)%type.

(** include/BlockChain/Chain.h:66-71 and the dirty flag of Core/Traits/Batchable.h:34. The data file
    is the byte-level model of FileModel.v with 32-byte records. *)
Record chain := mkChain { m_indices : list BlockIndex; m_height : N; c_dirty : bool; m_dataFile : dfile }.

(** Chain.h:87-99 GetOrCreateIndex: an index with this hash and height. The search through the other
    chains only shares the allocation of an index that has the same hash and height; not modelled. *)
Definition GetOrCreateIndex (hash : bytes) (height : N) : BlockIndex := (hash, height).

(** src/BlockChain/Chain.cpp:38-42 and 111-115: read the records of the file from number [k] on. *)
Definition read_indices (d : dfile) (from : list BlockIndex) : outcome (list BlockIndex) :=
  fold_left (fun acc (i : nat) =>
      let* l := acc in
      if nlen l <? DF_GetSize 32 d then
        let* hash := DF_GetDataAt 32 d (nlen l) in Ret (l ++ [GetOrCreateIndex hash (nlen l)])
      else Ret l)
    (seq 0 (N.to_nat (DF_GetSize 32 d))) (Ret from).

(** Chain.cpp:21-45, given the bytes of the file on disk ([bytes] empty when there is no file) and
    constructor 5-18. *)
Definition Chain_Load (file : bytes) (genesis : bytes) : outcome chain :=
  let d0 := DF_Load file in
  let* d1 := if DF_GetSize 32 d0 =? 0 then DF_Commit (DF_AddData d0 genesis) else Ret d0 in
  let* indices := read_indices d1 [(genesis, 0)] in
  Ret (mkChain indices (sub64 (nlen indices) 1) false d1).

(** Chain.cpp:47-55. *)
Definition GetByHeight (c : chain) (height : N) : option BlockIndex :=
  if (height <=? m_height c) && (height <? nlen (m_indices c)) then nth_error (m_indices c) (N.to_nat height) else None.
(** Chain.h:30-31: no bounds check. *)
Definition Chain_GetHash (c : chain) (height : N) : outcome bytes :=
  match nth_error (m_indices c) (N.to_nat height) with Some i => Ret (fst i) | None => Fault end.
Definition GetTip (c : chain) : outcome BlockIndex :=
  match nth_error (m_indices c) (N.to_nat (m_height c)) with Some i => Ret i | None => Fault end.
(** Chain.h:35-38. *)
Definition IsOnChain (c : chain) (height : N) (hash : bytes) : outcome bool :=
  if height <=? m_height c then let* h := Chain_GetHash c height in Ret (bytes_eqb h hash) else Ret false.

(** Chain.cpp:57-75. [AddBlock] and [Rewind] check before they change anything. *)
Definition Chain_AddBlock (c : chain) (hash : bytes) (height : N) : outcome chain :=
  if negb (height =? add64 (m_height c) 1) then Throw
  else Ret (mkChain (m_indices c ++ [GetOrCreateIndex hash height]) (add64 (m_height c) 1) true
              (DF_AddData (m_dataFile c) hash)).
(** Chain.cpp:77-92; line 86 erases from [lastHeight + 1] on. *)
Definition Chain_Rewind (c : chain) (lastHeight : N) : outcome chain :=
  if m_height c <? lastHeight then Throw
  else if lastHeight <? m_height c then
    let '(ok, d) := DF_Rewind 32 (m_dataFile c) (add64 lastHeight 1) in
    if ok then Ret (mkChain (firstn (N.to_nat (add64 lastHeight 1)) (m_indices c)) lastHeight true d) else Throw
  else Ret c.
(** Chain.cpp:94-102. *)
Definition Chain_Commit (c : chain) : outcome chain :=
  if c_dirty c then let* d := DF_Commit (m_dataFile c) in Ret (mkChain (m_indices c) (m_height c) false d)
  else Ret (mkChain (m_indices c) (m_height c) false (m_dataFile c)).
(** Chain.cpp:104-121. *)
Definition Chain_Rollback (c : chain) : outcome chain :=
  if c_dirty c then
    let d := DF_Rollback (m_dataFile c) in
    let* indices := read_indices d [] in
    Ret (mkChain indices (sub64 (nlen indices) 1) false d)
  else Ret (mkChain (m_indices c) (m_height c) false (m_dataFile c)).
(** Chain.cpp:123-127; taking the batch writer of the data file marks that file dirty
    (Lockable.h:161-169). *)
Definition Chain_OnInitWrite (c : chain) : chain :=
  mkChain (m_indices c) (m_height c) false (mkDfile (m_pFile (m_dataFile c)) true).
(** Chain.cpp:129-132: dropping the batch writer rolls the data file back if it is dirty
    (Lockable.h:114-135, 148-159). *)
Definition Chain_OnEndWrite (c : chain) : chain :=
  mkChain (m_indices c) (m_height c) (c_dirty c)
    (if m_dirty (m_dataFile c) then DF_Rollback (m_dataFile c) else m_dataFile c).

(** src/BlockChain/ChainStore.h: the two chains. include/BlockChain/ChainType.h. *)
Record chainstore := mkStore { m_pConfirmedChain : chain; m_pCandidateChain : chain }.
Inductive EChainType := CONFIRMED | CANDIDATE.
(** ChainStore.cpp:135-147. *)
Definition GetChain (s : chainstore) (t : EChainType) : chain :=
  match t with CONFIRMED => m_pConfirmedChain s | CANDIDATE => m_pCandidateChain s end.
(** Update through the shared pointer returned by GetChain. *)
Definition SetChain (s : chainstore) (t : EChainType) (c : chain) : chainstore :=
  match t with CONFIRMED => mkStore c (m_pCandidateChain s) | CANDIDATE => mkStore (m_pConfirmedChain s) c end.

(** ChainStore.cpp:14-41, given the bytes of the two files. *)
Definition Store_Load (confirmed candidate genesis : bytes) : outcome chainstore :=
  let* a := Chain_Load confirmed genesis in
  let* b := Chain_Load candidate genesis in
  Ret (mkStore a b).

(** ChainStore.cpp:79-84; [height] counts down, and wraps below zero to a height at which
    [GetByHeight] returns null. *)
Fixpoint FindCommon (c1 c2 : chain) (height : nat) : outcome BlockIndex :=
  match GetByHeight c1 (N.of_nat height), GetByHeight c2 (N.of_nat height) with
  | Some i1, Some i2 =>
    if bytes_eqb (fst i1) (fst i2) then Ret i1
    else match height with O => Fault | S h => FindCommon c1 c2 h end
  | _, _ => Fault
  end.
(** ChainStore.cpp:70-87. *)
Definition FindCommonIndex (s : chainstore) (t1 t2 : EChainType) : outcome BlockIndex :=
  let c1 := GetChain s t1 in let c2 := GetChain s t2 in
  FindCommon c1 c2 (N.to_nat (N.min (m_height c1) (m_height c2))).
(** ChainStore.cpp:111-115; source and destination may be the same object, so it is looked up in the
    current store each time. *)
Definition reorg_step (source destination : EChainType) (acc : outcome chainstore) (i : N) : outcome chainstore :=
  let* s := acc in
  let* hash := Chain_GetHash (GetChain s source) i in
  let* d := Chain_AddBlock (GetChain s destination) hash i in
  Ret (SetChain s destination d).
(** ChainStore.cpp:94-116. *)
Definition ReorgChain (s : chainstore) (source destination : EChainType) (height : N) : outcome chainstore :=
  if m_height (GetChain s source) <? height then Throw
  else
    let* pBlockIndex := FindCommonIndex s source destination in
    let commonHeight := N.min (snd pBlockIndex) height in
    let* d := Chain_Rewind (GetChain s destination) commonHeight in
    fold_left (reorg_step source destination)
      (map (fun i => commonHeight + 1 + N.of_nat i) (seq 0 (N.to_nat (height - commonHeight))))
      (Ret (SetChain s destination d)).
(** ChainStore.cpp:89-92. *)
Definition ReorgChain_tip (s : chainstore) (source destination : EChainType) : outcome chainstore :=
  ReorgChain s source destination (m_height (GetChain s source)).
(** ChainStore.cpp:118-133. *)
Definition Store_AddBlock (s : chainstore) (source destination : EChainType) (height : N) : outcome chainstore :=
  let* dt := GetTip (GetChain s destination) in
  if add64 (snd dt) 1 =? height then
    let* st := GetTip (GetChain s source) in
    if height <=? snd st then
      let* hash := Chain_GetHash (GetChain s source) height in
      let* d := Chain_AddBlock (GetChain s destination) hash height in
      Ret (SetChain s destination d)
    else Throw
  else Throw.
(** ChainStore.cpp:43-48. *)
Definition Store_Commit (s : chainstore) : outcome chainstore :=
  let* b := Chain_Commit (m_pCandidateChain s) in
  let* a := Chain_Commit (m_pConfirmedChain s) in Ret (mkStore a b).
(** ChainStore.cpp:50-55. *)
Definition Store_Rollback (s : chainstore) : outcome chainstore :=
  let* b := Chain_Rollback (m_pCandidateChain s) in
  let* a := Chain_Rollback (m_pConfirmedChain s) in Ret (mkStore a b).
(** ChainStore.cpp:57-69. *)
Definition Store_OnInitWrite (s : chainstore) : chainstore :=
  mkStore (Chain_OnInitWrite (m_pConfirmedChain s)) (Chain_OnInitWrite (m_pCandidateChain s)).
Definition Store_OnEndWrite (s : chainstore) : chainstore :=
  mkStore (Chain_OnEndWrite (m_pConfirmedChain s)) (Chain_OnEndWrite (m_pCandidateChain s)).
(** Lockable.h:99-135: destruction of a batch writer (the store's own flag was set when the writer was
    created and nothing clears it, so the rollback is always called) followed by the next one. *)
Definition Store_NextWriter (s : chainstore) : outcome chainstore :=
  let* s1 := Store_Rollback s in Ret (Store_OnInitWrite (Store_OnEndWrite s1)).

(** One call by a client. [CRestart]: the process is stopped and started again on the same files. *)
Inductive cop :=
| CAdd (t : EChainType) (hash : bytes) (height : N)
| CRewind (t : EChainType) (lastHeight : N)
| CReorg (source destination : EChainType) (height : N)
| CReorgTip (source destination : EChainType)
| CCopy (source destination : EChainType) (height : N)
| CCommit | CRollback | CNextWriter | CRestart
| CGetByHeight (t : EChainType) (height : N)
| CGetHash (t : EChainType) (height : N)
| CTip (t : EChainType)
| CIsOnChain (t : EChainType) (height : N) (hash : bytes)
| CFindCommon (t1 t2 : EChainType).
(** What the caller sees. *)
Inductive cres := RDone | RThrow | RUndefined | RIndex (i : option BlockIndex) | RHash (h : bytes) | RBool (b : bool).

Definition upd (s : chainstore) (o : outcome chainstore) : cres * chainstore :=
  match o with Ret s' => (RDone, s') | Throw => (RThrow, s) | Fault => (RUndefined, s) end.
Definition query {A} (s : chainstore) (f : A -> cres) (o : outcome A) : cres * chainstore :=
  (match o with Ret a => f a | Throw => RThrow | Fault => RUndefined end, s).
Definition file_of (c : chain) : bytes := disk (m_pFile (m_dataFile c)).

Section Steps.
Variable genesis : bytes.
Definition chain_step (s : chainstore) (o : cop) : cres * chainstore :=
  match o with
  | CAdd t hash height => upd s (let* c := Chain_AddBlock (GetChain s t) hash height in Ret (SetChain s t c))
  | CRewind t h => upd s (let* c := Chain_Rewind (GetChain s t) h in Ret (SetChain s t c))
  | CReorg a b h => upd s (ReorgChain s a b h)
  | CReorgTip a b => upd s (ReorgChain_tip s a b)
  | CCopy a b h => upd s (Store_AddBlock s a b h)
  | CCommit => upd s (Store_Commit s)
  | CRollback => upd s (Store_Rollback s)
  | CNextWriter => upd s (Store_NextWriter s)
  | CRestart => upd s (let* s' := Store_Load (file_of (m_pConfirmedChain s)) (file_of (m_pCandidateChain s)) genesis in
                       Ret (Store_OnInitWrite s'))
  | CGetByHeight t h => (RIndex (GetByHeight (GetChain s t) h), s)
  | CGetHash t h => query s RHash (Chain_GetHash (GetChain s t) h)
  | CTip t => query s (fun i => RIndex (Some i)) (GetTip (GetChain s t))
  | CIsOnChain t h hash => query s RBool (IsOnChain (GetChain s t) h hash)
  | CFindCommon a b => query s (fun i => RIndex (Some i)) (FindCommonIndex s a b)
  end.
Fixpoint chain_run (s : chainstore) (ops : list cop) : list cres * chainstore :=
  match ops with
  | [] => ([], s)
  | o :: ops' => let '(r, s1) := chain_step s o in let '(rs, s2) := chain_run s1 ops' in (r :: rs, s2)
  end.
End Steps.
