(** Specification for C16: a chain is a list of block hashes, block number [h] of the list is the block
    at height [h]; the store holds two chains, each with a committed and a current version. *)
From Verif Require Import Base Bytes ChainModel.
Local Open Scope N_scope.

Record version := mkV { cur : list bytes; com : list bytes }.
Definition store := EChainType -> version.
Definition put (s : store) (t : EChainType) (l : list bytes) : store :=
  fun u => match t, u with
           | CONFIRMED, CONFIRMED | CANDIDATE, CANDIDATE => mkV l (com (s u))
           | _, _ => s u
           end.
Definition block_at (l : list bytes) (h : N) : option bytes := nth_error l (N.to_nat h).
Definition size (l : list bytes) : N := N.of_nat (length l).

(** The greatest height [<= h] at which both lists have the same block. *)
Fixpoint common_below (l1 l2 : list bytes) (h : nat) : option nat :=
  match nth_error l1 h, nth_error l2 h with
  | Some a, Some b => if bytes_eqb a b then Some h else match h with O => None | S k => common_below l1 l2 k end
  | _, _ => match h with O => None | S k => common_below l1 l2 k end
  end.
Definition common (l1 l2 : list bytes) : option nat := common_below l1 l2 (max (length l1) (length l2)).

(** Result and new store of each call. The result [RUndefined] marks calls outside their contract. *)
Definition spec_step (s : store) (o : cop) : cres * store :=
  match o with
  | CAdd t hash h => if h =? size (cur (s t)) then (RDone, put s t (cur (s t) ++ [hash])) else (RThrow, s)
  | CRewind t h => if h <? size (cur (s t)) then (RDone, put s t (firstn (S (N.to_nat h)) (cur (s t)))) else (RThrow, s)
  | CReorg a b h =>
    if h <? size (cur (s a)) then
      match common (cur (s a)) (cur (s b)) with
      | Some c => (RDone, put s b (firstn (S (min c (N.to_nat h))) (cur (s b)) ++
                                   skipn (S c) (firstn (S (N.to_nat h)) (cur (s a)))))
      | None => (RUndefined, s)
      end
    else (RThrow, s)
  | CReorgTip a b =>
    match common (cur (s a)) (cur (s b)) with
    | Some c => (RDone, put s b (firstn (S c) (cur (s b)) ++ skipn (S c) (cur (s a))))
    | None => (RUndefined, s)
    end
  | CCopy a b h =>
    match block_at (cur (s a)) h with
    | Some hash => if h =? size (cur (s b)) then (RDone, put s b (cur (s b) ++ [hash])) else (RThrow, s)
    | None => (RThrow, s)
    end
  | CCommit => (RDone, fun t => mkV (cur (s t)) (cur (s t)))
  | CRollback | CNextWriter | CRestart => (RDone, fun t => mkV (com (s t)) (com (s t)))
  | CGetByHeight t h => (RIndex (option_map (fun x => (x, h)) (block_at (cur (s t)) h)), s)
  | CGetHash t h => (match block_at (cur (s t)) h with Some x => RHash x | None => RUndefined end, s)
  | CTip t => (RIndex (Some (last (cur (s t)) [], size (cur (s t)) - 1)), s)
  | CIsOnChain t h hash => (RBool (match block_at (cur (s t)) h with Some x => bytes_eqb x hash | None => false end), s)
  | CFindCommon a b =>
    (match common (cur (s a)) (cur (s b)) with
     | Some c => RIndex (Some (nth c (cur (s a)) [], N.of_nat c))
     | None => RUndefined
     end, s)
  end.
Fixpoint spec_run (s : store) (ops : list cop) : list cres * store :=
  match ops with
  | [] => ([], s)
  | o :: ops' => let '(r, s1) := spec_step s o in let '(rs, s2) := spec_run s1 ops' in (r :: rs, s2)
  end.

(** Hashes have 32 bytes; heights and sizes are 64-bit numbers. *)
Definition cop_ok (o : cop) : Prop :=
  match o with
  | CAdd _ hash h => length hash = 32%nat /\ h < W64
  | CRewind _ h | CReorg _ _ h | CCopy _ _ h | CGetByHeight _ h | CGetHash _ h | CIsOnChain _ h _ => h < W64
  | _ => True
  end.

(** [linked parent l]: each block of [l] has the block before it as parent. *)
Fixpoint linked (parent : bytes -> bytes) (l : list bytes) : Prop :=
  match l with
  | a :: (b :: _) as l' => parent b = a /\ linked parent l'
  | _ => True
  end.
(** The block that the call adds, if any, has the tip it is added to as parent. *)
Definition on_parent (parent : bytes -> bytes) (s : store) (o : cop) : Prop :=
  match o with
  | CAdd t hash h => h = size (cur (s t)) -> parent hash = last (cur (s t)) []
  | CCopy a b h => h = size (cur (s b)) -> forall x, block_at (cur (s a)) h = Some x -> parent x = last (cur (s b)) []
  | _ => True
  end.
Fixpoint adds_linked (parent : bytes -> bytes) (s : store) (ops : list cop) : Prop :=
  match ops with
  | [] => True
  | o :: ops' => on_parent parent s o /\ adds_linked parent (snd (spec_step s o)) ops'
  end.
