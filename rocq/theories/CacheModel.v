(** Model of the bounded caches (deps/caches) and of the range proof cache built on them. *)
From Verif Require Import Base Bytes.
Local Open Scope N_scope.

(** The two policies the program uses. deps/caches/Cache.h:10-14 *)
Inductive policy := FIFO | LRU.

Section Cache.
Variables (K V : Type) (eqb : K -> K -> bool).

(** std::unordered_map: find, emplace (keeps an existing entry), operator[]= and erase. The order of the list
    is not observable. *)
Fixpoint map_find (m : list (K * V)) (k : K) : option V :=
  match m with [] => None | (k', v) :: m' => if eqb k' k then Some v else map_find m' k end.
Definition map_emplace (m : list (K * V)) (k : K) (v : V) : list (K * V) :=
  match map_find m k with Some _ => m | None => (k, v) :: m end.
Fixpoint map_erase (m : list (K * V)) (k : K) : list (K * V) :=
  match m with [] => [] | (k', v) :: m' => if eqb k' k then m' else (k', v) :: map_erase m' k end.
Definition map_set (m : list (K * V)) (k : K) (v : V) : list (K * V) := (k, v) :: map_erase m k.

(** fixed_sized_cache. deps/caches/include/cache.hpp:18, 144-149: the map, the policy's queue (front first)
    and the maximum size. The mutex is not modelled: every call holds it from start to end, so calls are
    atomic (the reference that Get returns is read by the caller after the mutex is released). The erase
    callback is the default one, which does nothing. *)
Record cache := mkCache { cache_items_map : list (K * V); queue : list K; max_cache_size : N }.

(** cache.hpp:28-37: size 0 means the largest std::size_t. *)
Definition cache_new (max_size : N) : cache :=
  mkCache [] [] (if max_size =? 0 then W64 - 1 else max_size).

(** lru_cache_policy.hpp:18-22, fifo_cache_policy.hpp:17-20: Insert, emplace_front. [key_finder] of the LRU
    policy maps a key to its node, which is modelled by looking the key up in the queue. *)
Definition policy_insert (q : list K) (k : K) : list K := k :: q.

(** Removes the node of [k]; splicing a node that does not exist is undefined behaviour. *)
Fixpoint unlink (q : list K) (k : K) : option (list K) :=
  match q with
  | [] => None
  | k' :: q' => if eqb k' k then Some q' else option_map (cons k') (unlink q' k)
  end.
(** lru_cache_policy.hpp:24-28: Touch moves the node to the front; fifo_cache_policy.hpp:22-25: nothing. *)
Definition policy_touch (p : policy) (q : list K) (k : K) : outcome (list K) :=
  match p with
  | FIFO => Ret q
  | LRU => match unlink q k with Some q' => Ret (k :: q') | None => Fault end
  end.
(** lru_cache_policy.hpp:30-35, fifo_cache_policy.hpp:27-30: Erase ignores its key and pops the back. *)
Definition policy_erase (q : list K) : outcome (list K) :=
  match q with [] => Fault | _ => Ret (removelast q) end.
(** lru_cache_policy.hpp:38-41, fifo_cache_policy.hpp:33-36: ReplCandidate, back(). *)
Fixpoint policy_candidate (q : list K) : outcome K :=
  match q with [] => Fault | [k] => Ret k | _ :: q' => policy_candidate q' end.

(** cache.hpp:124-131: Erase. Dereferencing end() is undefined behaviour. *)
Definition cache_erase (c : cache) (k : K) : outcome cache :=
  let* q := policy_erase (queue c) in
  match map_find (cache_items_map c) k with
  | None => Fault
  | Some _ => Ret (mkCache (map_erase (cache_items_map c) k) q (max_cache_size c))
  end.
(** cache.hpp:118-122: Insert. *)
Definition cache_insert (c : cache) (k : K) (v : V) : cache :=
  mkCache (map_emplace (cache_items_map c) k v) (policy_insert (queue c) k) (max_cache_size c).
(** cache.hpp:133-137: Update. *)
Definition cache_update (p : policy) (c : cache) (k : K) (v : V) : outcome cache :=
  let* q := policy_touch p (queue c) k in
  Ret (mkCache (map_set (cache_items_map c) k v) q (max_cache_size c)).

(** cache.hpp:44-66: Put. *)
Definition Put (p : policy) (c : cache) (k : K) (v : V) : outcome cache :=
  match map_find (cache_items_map c) k with
  | None =>
    let* c1 := (if max_cache_size c <? add64 (N.of_nat (length (cache_items_map c))) 1
                then let* disp_candidate_key := policy_candidate (queue c) in cache_erase c disp_candidate_key
                else Ret c) in
    Ret (cache_insert c1 k v)
  | Some _ => cache_update p c k v
  end.
(** cache.hpp:68-80: Get; a missing key throws and changes nothing. *)
Definition Get (p : policy) (c : cache) (k : K) : outcome (V * cache) :=
  match map_find (cache_items_map c) k with
  | None => Throw
  | Some v => let* q := policy_touch p (queue c) k in Ret (v, mkCache (cache_items_map c) q (max_cache_size c))
  end.
(** cache.hpp:82-86: Cached. *)
Definition Cached (c : cache) (k : K) : bool :=
  match map_find (cache_items_map c) k with Some _ => true | None => false end.
(** cache.hpp:88-93: Size. *)
Definition Size (c : cache) : N := N.of_nat (length (cache_items_map c)).
(** cache.hpp:95-105: Clear; the policy's Erase is called once per entry. *)
Fixpoint clear_queue (m : list (K * V)) (q : list K) : outcome (list K) :=
  match m with [] => Ret q | _ :: m' => let* q' := policy_erase q in clear_queue m' q' end.
Definition Clear (c : cache) : outcome cache :=
  let* q := clear_queue (cache_items_map c) (queue c) in Ret (mkCache [] q (max_cache_size c)).

(** A call and its result. *)
Inductive call := CPut (k : K) (v : V) | CGet (k : K) | CCached (k : K) | CSize | CClear.
Inductive result := RUnit | RValue (v : V) | RMissing | RBool (b : bool) | RNat (n : N).
Definition cache_step (p : policy) (c : cache) (o : call) : outcome (result * cache) :=
  match o with
  | CPut k v => let* c1 := Put p c k v in Ret (RUnit, c1)
  | CGet k => match Get p c k with Ret (v, c1) => Ret (RValue v, c1) | Throw => Ret (RMissing, c) | Fault => Fault end
  | CCached k => Ret (RBool (Cached c k), c)
  | CSize => Ret (RNat (Size c), c)
  | CClear => let* c1 := Clear c in Ret (RUnit, c1)
  end.
Fixpoint cache_run (p : policy) (c : cache) (os : list call) : outcome (list result * cache) :=
  match os with
  | [] => Ret ([], c)
  | o :: os' => let* rc := cache_step p c o in
                let* rc' := cache_run p (snd rc) os' in Ret (fst rc :: fst rc', snd rc')
  end.
End Cache.

Arguments cache_items_map {K V}. Arguments queue {K V}. Arguments max_cache_size {K V}.
Arguments mkCache {K V}. Arguments cache_new {K V}. Arguments map_find {K V}. Arguments map_erase {K V}.
Arguments map_emplace {K V}. Arguments map_set {K V}. Arguments unlink {K}. Arguments policy_touch {K}.
Arguments policy_erase {K}. Arguments policy_candidate {K}. Arguments policy_insert {K}.
Arguments cache_erase {K V}. Arguments cache_insert {K V}. Arguments cache_update {K V}. Arguments Put {K V}.
Arguments Get {K V}. Arguments Cached {K V}. Arguments Size {K V}. Arguments clear_queue {K V}. Arguments Clear {K V}.
Arguments CPut {K V}. Arguments CGet {K V}. Arguments CCached {K V}. Arguments CSize {K V}. Arguments CClear {K V}.
Arguments RUnit {V}. Arguments RValue {V}. Arguments RMissing {V}. Arguments RBool {V}. Arguments RNat {V}.
Arguments cache_step {K V}. Arguments cache_run {K V}.

(** * Range proofs *)
Section Bulletproofs.
(** secp256k1 (not modelled). [parses c]: the 33 bytes are a commitment; [verifies c p]: the proof [p], exactly
    these bytes, is valid for the commitment. The multi-verification call is modelled as verifying each pair,
    which leaves out its negligible error probability. *)
Variable parses : bytes -> bool.
Variable verifies : bytes -> bytes -> bool.

Notation pcache := (cache bytes bytes).

(** src/Crypto/BulletProofsCache.h:16-21: AddToCache. *)
Definition AddToCache (c : pcache) (commitment : bytes) : outcome pcache := Put bytes_eqb LRU c commitment commitment.
(** src/Crypto/BulletProofsCache.h:23-33: WasAlreadyVerified. *)
Definition WasAlreadyVerified (c : pcache) (commitment : bytes) : outcome (bool * pcache) :=
  if Cached bytes_eqb c commitment then
    let* vc := Get bytes_eqb LRU c commitment in Ret (bytes_eqb (fst vc) commitment, snd vc)
  else Ret (false, c).

(** src/Crypto/Bulletproofs.cpp:45-52: collects the pairs that are not in the cache. *)
Fixpoint select (c : pcache) (l : list (bytes * bytes)) : outcome (list (bytes * bytes) * pcache) :=
  match l with
  | [] => Ret ([], c)
  | (commitment, proof) :: l' =>
    let* bc := WasAlreadyVerified c commitment in
    let* rest := select (snd bc) l' in
    Ret (if fst bc then fst rest else (commitment, proof) :: fst rest, snd rest)
  end.
(** src/Crypto/Bulletproofs.cpp:66-68: secp256k1_bulletproof_rangeproof_verify_multi reads [proofLength] bytes
    at each pointer; a shorter proof is read out of bounds. *)
Fixpoint verify_multi (proofLength : nat) (l : list (bytes * bytes)) : outcome bool :=
  match l with
  | [] => Ret true
  | (commitment, proof) :: l' =>
    if (length proof <? proofLength)%nat then Fault else
    let* rest := verify_multi proofLength l' in
    Ret (verifies commitment (firstn proofLength proof) && rest)%bool
  end.
(** src/Crypto/Bulletproofs.cpp:77-80. *)
Fixpoint add_all (c : pcache) (l : list (bytes * bytes)) : outcome pcache :=
  match l with
  | [] => Ret c
  | (commitment, _) :: l' => let* c1 := AddToCache c commitment in add_all c1 l'
  end.
(** src/Crypto/Bulletproofs.cpp:33-83: VerifyBulletproofs. front() of an empty vector is undefined behaviour
    (line 38). Pedersen::ConvertCommitments throws on bytes that are not a commitment (line 64). A throw
    leaves the cache with the entries touched so far. *)
Definition VerifyBulletproofs (c : pcache) (l : list (bytes * bytes)) : outcome (bool * pcache) :=
  match l with
  | [] => Fault
  | (_, first) :: _ =>
    let* sc := select c l in
    match fst sc with
    | [] => Ret (true, snd sc)
    | todo =>
      if forallb (fun e => parses (fst e)) todo then
        let* ok := verify_multi (length first) todo in
        if ok then let* c1 := add_all (snd sc) todo in Ret (true, c1) else Ret (false, snd sc)
      else Throw
    end
  end.
(** The cache after the call, whatever its result. *)
Definition after_verify (c : pcache) (l : list (bytes * bytes)) : outcome pcache :=
  match VerifyBulletproofs c l with
  | Ret (_, c1) => Ret c1
  | Throw => let* sc := select c l in Ret (snd sc)
  | Fault => Fault
  end.
(** src/Crypto/BulletProofsCache.h:10-14: an empty cache of 3000 entries, then a sequence of batches. *)
Fixpoint verify_batches (c : pcache) (batches : list (list (bytes * bytes))) : outcome pcache :=
  match batches with
  | [] => Ret c
  | l :: ls => let* c1 := after_verify c l in verify_batches c1 ls
  end.
Definition proofs_cache : pcache := cache_new 3000.
End Bulletproofs.
