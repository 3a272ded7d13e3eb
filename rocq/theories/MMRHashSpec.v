(** Specification of the Merkle mountain range over a sequence of leaves: a list of perfect binary
    trees of strictly decreasing height whose leaves, read left to right, are the sequence.
    Each node is hashed together with its post-order position. *)
From Verif Require Import Base Bytes.
Local Open Scope N_scope.

Inductive dtree :=
| DLeaf (x : bytes)
| DNode (l r : dtree).

Fixpoint dleaves (t : dtree) : list bytes :=
  match t with DLeaf x => [x] | DNode l r => dleaves l ++ dleaves r end.

Fixpoint dheight (t : dtree) : nat :=
  match t with DLeaf _ => O | DNode l _ => S (dheight l) end.

Fixpoint perfect (t : dtree) : Prop :=
  match t with DLeaf _ => True | DNode l r => dheight l = dheight r /\ perfect l /\ perfect r end.

(** number of nodes *)
Fixpoint dsize (t : dtree) : N :=
  match t with DLeaf _ => 1 | DNode l r => dsize l + dsize r + 1 end.

Fixpoint decreasing_heights (ts : list dtree) : Prop :=
  match ts with
  | [] => True
  | t :: ts' => match ts' with [] => True | t' :: _ => (dheight t' < dheight t)%nat end
                /\ decreasing_heights ts'
  end.

(** [ts] is the mountain range over the leaves [xs] *)
Definition is_mmr (ts : list dtree) (xs : list bytes) : Prop :=
  Forall perfect ts /\ decreasing_heights ts /\ flat_map dleaves ts = xs.

Fixpoint fsize (ts : list dtree) : N :=
  match ts with [] => 0 | t :: ts' => dsize t + fsize ts' end.

Section Hash.
Variable H : bytes -> bytes.

(** hash of the tree whose first node (in post-order) is at position [b] *)
Fixpoint tree_hash (b : N) (t : dtree) : bytes :=
  match t with
  | DLeaf x => H (be_bytes 8 b ++ x)
  | DNode l r => H (be_bytes 8 (b + dsize l + dsize r)
                    ++ tree_hash b l ++ tree_hash (b + dsize l) r)
  end.

(** hashes of all nodes in post-order *)
Fixpoint tree_hashes (b : N) (t : dtree) : list bytes :=
  match t with
  | DLeaf x => [tree_hash b t]
  | DNode l r => tree_hashes b l ++ tree_hashes (b + dsize l) r ++ [tree_hash b t]
  end.

Fixpoint mmr_hashes (b : N) (ts : list dtree) : list bytes :=
  match ts with [] => [] | t :: ts' => tree_hashes b t ++ mmr_hashes (b + dsize t) ts' end.

Fixpoint peak_hashes (b : N) (ts : list dtree) : list bytes :=
  match ts with [] => [] | t :: ts' => tree_hash b t :: peak_hashes (b + dsize t) ts' end.

(** bagging of the peaks from right to left: p1, p2, ..., pn  |->  H(size, p1, H(size, p2, ... pn)) *)
Fixpoint bag (size : N) (peaks : list bytes) : bytes :=
  match peaks with
  | [] => repeat 0 32
  | p :: ps => match ps with
               | [] => p
               | _ :: _ => H (be_bytes 8 size ++ p ++ bag size ps)
               end
  end.

Definition mmr_root (ts : list dtree) : bytes := bag (fsize ts) (peak_hashes 0 ts).
End Hash.
