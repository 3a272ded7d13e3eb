(** Specification for C34 and C35, independent of the map and the queue of the implementation. *)
From Verif Require Import Base Bytes CacheModel.
Local Open Scope N_scope.

Section CacheSpec.
Variables (K V : Type) (eqb : K -> K -> bool).

(** What was called, and what was returned, oldest first. *)
Definition history := list (call K V * result V).

(** The value last put for [k] since the last Clear. *)
Definition last_put (h : history) (k : K) : option V :=
  fold_left (fun found e => match e with
                            | (CPut k' v, _) => if eqb k' k then Some v else found
                            | (CClear, _) => None
                            | _ => found
                            end) h None.

(** The keys used, most recent first, since the last Clear: a Put uses its key, and so does a Get that
    found something. *)
Definition used (e : call K V * result V) : list K :=
  match e with (CPut k _, _) => [k] | (CGet k, RValue _) => [k] | _ => [] end.
Definition uses (h : history) : list K :=
  fold_left (fun l e => match e with (CClear, _) => [] | _ => used e ++ l end) h [].
(** Keeps the first occurrence of each key. *)
Fixpoint distinct (l : list K) : list K :=
  match l with [] => [] | k :: l' => k :: filter (fun x => negb (eqb x k)) (distinct l') end.
(** LRU: the [cap] keys used most recently are cached. *)
Definition lru_keys (cap : N) (h : history) : list K := firstn (N.to_nat cap) (distinct (uses h)).

(** FIFO: the keys in order of arrival, most recent first; a key arrives when it is put while not among the
    last [cap] arrivals. *)
Definition arrivals (cap : N) (h : history) : list K :=
  fold_left (fun l e => match e with
                        | (CPut k _, _) => if existsb (fun x => eqb x k) (firstn (N.to_nat cap) l) then l else k :: l
                        | (CClear, _) => []
                        | _ => l
                        end) h [].
Definition fifo_keys (cap : N) (h : history) : list K := firstn (N.to_nat cap) (arrivals cap h).
Definition kept (p : policy) (cap : N) (h : history) : list K :=
  match p with FIFO => fifo_keys cap h | LRU => lru_keys cap h end.

(** The result the call must have after the history [h]. *)
Definition expected (p : policy) (cap : N) (h : history) (o : call K V) : result V :=
  match o with
  | CPut _ _ | CClear => RUnit
  | CGet k => if existsb (fun x => eqb x k) (kept p cap h)
              then match last_put h k with Some v => RValue v | None => RMissing end else RMissing
  | CCached k => RBool (existsb (fun x => eqb x k) (kept p cap h))
  | CSize => RNat (N.of_nat (length (kept p cap h)))
  end.
(** Every call of the run has the expected result. *)
Fixpoint as_expected (p : policy) (cap : N) (h : history) (os : list (call K V)) (rs : list (result V)) : Prop :=
  match os, rs with
  | [], [] => True
  | o :: os', r :: rs' => r = expected p cap h o /\ as_expected p cap (h ++ [(o, r)]) os' rs'
  | _, _ => False
  end.
(** In the list [l], newest first, [y] occurs before any [x]. *)
Definition newer (l : list K) (y x : K) : Prop := exists a b, l = a ++ b /\ In y a /\ ~ In x a /\ In x b.
End CacheSpec.
Arguments last_put {K V}. Arguments uses {K V}. Arguments used {K V}. Arguments distinct {K}. Arguments lru_keys {K V}.
Arguments arrivals {K V}. Arguments fifo_keys {K V}. Arguments kept {K V}. Arguments expected {K V}.
Arguments as_expected {K V}.
Arguments newer {K}.

(** * C35 *)
Section RangeProofSpec.
Variable verifies : bytes -> bytes -> bool.
(** All proofs of a batch are read with the length of its first proof. *)
Definition cut (l : list (bytes * bytes)) (p : bytes) : bytes := firstn (length (snd (hd ([], []) l))) p.
(** Some batch contains the commitment [k] with a proof that verifies. *)
Definition checked (bs : list (list (bytes * bytes))) (k : bytes) : Prop :=
  exists l p, In l bs /\ In (k, p) l /\ verifies k (cut l p) = true.
End RangeProofSpec.
