(** Specification for C54. *)
From Verif Require Import Base Bytes CodecModel HeaderModel HeaderSpec.
Local Open Scope N_scope.

(** A node at rest whose best chain is [hs], lowest first; every state reached by events is one (C17). *)
Definition node (s : cstate) (hs : list BlockHeader) : Prop :=
  quiet s /\ best_headers s hs /\ unique_hashes s /\ hs <> [] /\ N.of_nat (length hs) < 4611686018427387904 /\
  forall i h, nth_error hs i = Some h -> h_height h = N.of_nat i.
(** No two different headers were stored under one hash in the two nodes together. *)
Definition unique_between (s r : cstate) : Prop :=
  forall k h h', In (k, h) (headers_db s ++ headers_db r) -> In (k, h') (headers_db s ++ headers_db r) -> h = h'.
(** [c] is the header the node has for the first of [hashes] that it knows. *)
Definition first_known (r : cstate) (hashes : list bytes) (c : BlockHeader) : Prop :=
  exists pre k post, hashes = pre ++ k :: post /\ Forall (fun x => stored r x = None) pre /\ stored r k = Some c.
(** The chains [hs] of [s] and [hs'] of [r] are the same up to height [f] and no further, and [r] has
    never seen the rest of [hs]. *)
Definition fork_at (f : nat) (hs : list BlockHeader) (r : cstate) (hs' : list BlockHeader) : Prop :=
  (f < length hs)%nat /\ (f < length hs')%nat /\ firstn (S f) hs = firstn (S f) hs' /\
  forall i h, (f < i)%nat -> nth_error hs i = Some h -> stored r (BlockHeader_GetHash h) = None.

(** [s'] comes from [s] by asking [r] for headers [n] times, at any times, when no answer made the node throw. *)
From Verif Require Import ConsensusModel CuckooModel LocatorModel.
Inductive rounds (Blake2b : bytes -> bytes) (BAD_BLOCKS : bytes -> bool) (env : Environment) (pow_keys : BlockHeader -> sip) (r : cstate) :
    nat -> cstate -> cstate -> Prop :=
| no_round s : rounds Blake2b BAD_BLOCKS env pow_keys r 0 s s
| one_round n s s1 s' now status : SyncRound Blake2b BAD_BLOCKS env pow_keys now r s = (Ret status, s1) ->
    rounds Blake2b BAD_BLOCKS env pow_keys r n s1 s' -> rounds Blake2b BAD_BLOCKS env pow_keys r (S n) s s'.
(** Heights the requester names: its tip's, 2 below, then 4, 8, 16, ... more each time, and at last 0. *)
Definition locator_pattern (tip : N) (heights : list N) : Prop :=
  exists k, heights = map (fun i => tip - (2 ^ N.of_nat (S i) - 2)) (seq 0 k) ++ [0] /\ (k <= 19)%nat /\
    (forall i, (i < k)%nat -> 2 ^ N.of_nat (S i) - 2 < tip) /\ (k = 19%nat \/ tip <= 2 ^ N.of_nat (S k) - 2).
