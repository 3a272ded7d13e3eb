(** What the transfer of the output set is about. *)
From Verif Require Import Base Bytes FileModel CodecModel UtxoModel StateModel.
Local Open Scope N_scope.

(** The bytes sent after the announcement of an archive. *)
Fixpoint wire_bytes (w : list wire) : bytes :=
  match w with [] => [] | WBytes b :: w' => b ++ wire_bytes w' | _ :: w' => wire_bytes w' end.
Fixpoint archives (w : list wire) : nat :=
  match w with [] => O | WArchive _ _ _ :: w' => S (archives w') | _ :: w' => archives w' end.
(** Two chains of block hashes: a block has the same predecessors in both. *)
Definition same_past (a b : list bytes) : Prop := forall k, (k < length a)%nat -> (k < length b)%nat -> nth k a [] = nth k b [] -> firstn (S k) a = firstn (S k) b.
(** Equal starts: the last block that both have at the same height is [k]. *)
Definition last_common (a b : list bytes) (k : nat) : Prop :=
  (k < length a)%nat /\ (k < length b)%nat /\ nth k a [] = nth k b [] /\ (forall j, (k < j)%nat -> (j < length a)%nat -> (j < length b)%nat -> nth j a [] <> nth j b []).

(** The block that created leaf [i] of the output set: the first header of the chain whose set has more than [i] leaves. *)
Fixpoint block_of_leaf (headers : table BlockHeader) (i : N) (chain : list bytes) : option BlockHeader :=
  match chain with
  | [] => None
  | x :: rest =>
    match tget headers x with
    | None => block_of_leaf headers i rest
    | Some h => match GetNumOutputs h with Ret n => if i <? n then Some h else block_of_leaf headers i rest | _ => None end
    end
  end.
