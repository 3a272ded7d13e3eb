(** Specification of MMR positions: perfect binary trees numbered in post-order
    (left subtree, right subtree, node), independent of any bit trick. *)
From Verif Require Import Base.
Local Open Scope N_scope.

(** A perfect tree whose nodes carry their position. *)
Inductive ptree :=
| PLeaf (pos : N)
| PNode (pos : N) (l r : ptree).

Definition root_pos (t : ptree) : N := match t with PLeaf p => p | PNode p _ _ => p end.

Fixpoint tree_height (t : ptree) : nat :=
  match t with PLeaf _ => O | PNode _ l _ => S (tree_height l) end.

(** [number h b]: the perfect tree of height [h] numbered in post-order from [b],
    and the next free number. *)
Fixpoint number (h : nat) (b : N) : ptree * N :=
  match h with
  | O => (PLeaf b, b + 1)
  | S h' => let (l, b1) := number h' b in
            let (r, b2) := number h' b1 in
            (PNode b2 l r, b2 + 1)
  end.

(** The MMR forest is the union of the trees [fst (number H 0)] for growing [H]
    (each is the left subtree of the next). *)
Definition big_tree (H : nat) : ptree := fst (number H 0).

Inductive subtree (s : ptree) : ptree -> Prop :=
| sub_here : subtree s s
| sub_left p l r : subtree s l -> subtree s (PNode p l r)
| sub_right p l r : subtree s r -> subtree s (PNode p l r).

(** positions of the leaves, from left to right *)
Fixpoint leaf_positions (t : ptree) : list N :=
  match t with PLeaf p => [p] | PNode _ l r => leaf_positions l ++ leaf_positions r end.

(** all positions, in post-order *)
Fixpoint positions (t : ptree) : list N :=
  match t with PLeaf p => [p] | PNode p l r => positions l ++ positions r ++ [p] end.

(** The mountains of an MMR: a list of perfect trees of strictly decreasing height laid
    out one after the other.  [forest b hs] numbers trees of heights [hs] from [b]. *)
Fixpoint forest (b : N) (hs : list nat) : list ptree * N :=
  match hs with
  | [] => ([], b)
  | h :: hs' => let (t, b1) := number h b in
                let (ts, b2) := forest b1 hs' in (t :: ts, b2)
  end.

Fixpoint strictly_decreasing (hs : list nat) : Prop :=
  match hs with
  | [] => True
  | h :: hs' => match hs' with [] => True | h' :: _ => (h' < h)%nat end /\ strictly_decreasing hs'
  end.
