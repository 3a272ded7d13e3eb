(** Specification for C17, C18 (headers) and C44. *)
From Verif Require Import Base Bytes MMRHashSpec CodecModel ConsensusModel CuckooModel DifficultyModel CacheModel HeaderModel.
Local Open Scope N_scope.

(** What survives the end of a call: the committed versions. *)
Definition best (s : cstate) : list bytes := committed (s_candidate s).
Definition headers_db (s : cstate) : list (bytes * BlockHeader) := committed (s_db s).
(** The header the database returns for a hash, and the total difficulty of the best chain's last header. *)
Definition stored (s : cstate) (hash : bytes) : option BlockHeader := db_find (headers_db s) hash.
Definition work (s : cstate) : N :=
  match stored s (last (best s) []) with Some h => h_totalDifficulty h | None => 0 end.

(** No two different headers were ever stored under one hash. *)
Definition unique_hashes (s : cstate) : Prop :=
  forall k h h', In (k, h) (headers_db s) -> In (k, h') (headers_db s) -> h = h'.

(** The lockable stores of two states are observably the same. *)
Definition same_stores (s s' : cstate) : Prop :=
  s_confirmed s' = s_confirmed s /\ s_candidate s' = s_candidate s /\ s_db s' = s_db s /\ s_mmr s' = s_mmr s /\
  mmr_dirty s' = mmr_dirty s.
(** No batch is open: nothing is uncommitted. *)
Definition quiet (s : cstate) : Prop :=
  now_ (s_confirmed s) = committed (s_confirmed s) /\ now_ (s_candidate s) = committed (s_candidate s) /\
  now_ (s_db s) = committed (s_db s) /\ now_ (s_mmr s) = committed (s_mmr s) /\ mmr_dirty s = false.

(** [hs] are the headers of the best chain, lowest first. *)
Definition best_headers (s : cstate) (hs : list BlockHeader) : Prop :=
  map BlockHeader_GetHash hs = best s /\ forall h, In h hs -> In (BlockHeader_GetHash h, h) (headers_db s).
(** Every header but the first names the one before it and has strictly more total difficulty. *)
Fixpoint linked (hs : list BlockHeader) : Prop :=
  match hs with
  | h1 :: ((h2 :: _) as rest) =>
    h_previousBlockHash h2 = BlockHeader_GetHash h1 /\ h_height h2 = h_height h1 + 1 /\
    h_totalDifficulty h1 < h_totalDifficulty h2 /\ linked rest
  | _ => True
  end.

(** The header was once validated, at a time in [times], on top of a stored header and against stored headers. *)
Definition validated (env : Environment) (pow_keys : BlockHeader -> sip) (times : Z -> Prop)
    (headers : list (bytes * BlockHeader)) (h : BlockHeader) : Prop :=
  exists now prev k known root, times now /\ In (k, prev) headers /\
    (forall hash x, known hash = Some x -> In (hash, x) headers) /\
    ValidateHeader known env pow_keys root now h prev = Ret tt.
(** The time on the node's clock when it handles an event. *)
Definition clock (e : event) : list Z := match e with Header now _ | Headers now _ => [now] | Restart => [] end.

(** The headers an event brings. *)
Definition brings (e : event) : list BlockHeader :=
  match e with Header _ h => [h] | Headers _ hs => hs | Restart => [] end.
Definition single (e : event) : Prop := match e with Headers _ _ => False | _ => True end.
(** The node is never restarted while its best chain is the genesis header alone. *)
Fixpoint late_restarts (Blake2b : bytes -> bytes) (BAD_BLOCKS : bytes -> bool) (env : Environment) (pow_keys : BlockHeader -> sip)
    (genesis : BlockHeader) (fuel : nat) (es : list event) (s : cstate) : Prop :=
  match es with
  | [] => True
  | e :: es' => (e = Restart -> (1 < length (best s))%nat) /\
    match handle Blake2b BAD_BLOCKS env pow_keys fuel genesis e s with
    | Some (_, s') => late_restarts Blake2b BAD_BLOCKS env pow_keys genesis fuel es' s'
    | None => True
    end
  end.
