(** What a proof of work is supposed to be: 42 distinct edges of the header's graph, in
    ascending order, that form one simple cycle. *)
From Coq Require Import Permutation Sorted.
From Verif Require Import Base.
Local Open Scope N_scope.

Section Cycle.
  Context {V : Type}.
  (** [ends e]: the two endpoints of the edge with nonce [e]. *)
  Variable ends : N -> V * V.
  (** [meets x y]: an edge arriving at [x] may be continued by an edge leaving from [y]. *)
  Variable meets : V -> V -> Prop.
  (** [place x]: the place in the graph where [x] lies (no place may be visited twice). *)
  Variable place : V -> V.

  (** A step of a walk: an edge and whether it is walked backwards. *)
  Definition walked (s : N * bool) : V * V :=
    let (u, v) := ends (fst s) in if snd s then (v, u) else (u, v).

  (** [walk] is a closed walk: every step ends where the next one (cyclically) begins. *)
  Definition closed_walk (walk : list (N * bool)) : Prop :=
    forall t s s',
      nth_error walk t = Some s ->
      nth_error walk ((t + 1) mod length walk) = Some s' ->
      meets (snd (walked s)) (fst (walked s')).

  (** The edges [nonces] form one simple cycle: there is a closed walk over all of them, each
      used once, which visits no place twice. *)
  Definition simple_cycle_by (walk : list (N * bool)) (nonces : list N) : Prop :=
    Permutation (map fst walk) nonces /\
    closed_walk walk /\
    NoDup (map (fun s => place (snd (walked s))) walk).

  Definition simple_cycle (nonces : list N) : Prop :=
    exists walk, simple_cycle_by walk nonces.

  (** Same, all edges walked forwards (directed graphs). *)
  Definition directed_cycle (nonces : list N) : Prop :=
    exists walk, simple_cycle_by walk nonces /\ Forall (fun s => snd s = false) walk.

  (** Same, even and odd nonces alternate along the walk. *)
  Definition alternating_cycle (nonces : list N) : Prop :=
    exists walk, simple_cycle_by walk nonces /\
      forall t s s',
        nth_error walk t = Some s ->
        nth_error walk ((t + 1) mod length walk) = Some s' ->
        N.odd (fst s') = negb (N.odd (fst s)).
End Cycle.

(** Bipartite graphs: a node is a side and a number. *)
Definition bi_ends (u v : N -> N) (e : N) : (bool * N) * (bool * N) := ((false, u e), (true, v e)).

(** Cuckatoo graphs: the nodes x and x xor 1 of one side are paired; a walk arriving at one of
    them continues from the other. *)
Definition paired (x y : bool * N) : Prop := fst x = fst y /\ snd y = N.lxor (snd x) 1.
Definition pair_place (x : bool * N) : bool * N := (fst x, snd x / 2).

(** Well-formed proofs: 42 nonces, strictly ascending, all below the number of edges. *)
Definition proof_shape (num_edges : N) (nonces : list N) : Prop :=
  length nonces = 42%nat /\ StronglySorted N.lt nonces /\ Forall (fun e => e < num_edges) nonces.
