(** Model of the proof-of-work cycle verifiers (src/PoW).

    The siphash functions are modelled bit for bit.  Array indices (0 .. 83) are [nat], words
    are [N].  The loops `do ... while (i != 0)` are given a step budget; the result [None]
    means "still running when the budget is used up", so that a theorem about termination has
    to provide a sufficient budget and a theorem about divergence has to rule out all of them.
    Simplification: the counter `n` (uint32_t) is a [nat]; it would wrap only after 2^32
    iterations, and every terminating run below makes at most 84. *)
From Verif Require Import Base.
Local Open Scope N_scope.

(** src/PoW/Common.h 16: PROOFSIZE. *)
Definition PROOFSIZE : nat := 42.

(** src/PoW/Common.h 18: enum verify_code (the values used by the verifiers). *)
Inductive verify_code : Type :=
| POW_OK | POW_TOO_BIG | POW_TOO_SMALL | POW_NON_MATCHING | POW_BRANCH | POW_DEAD_END
| POW_SHORT_CYCLE | POW_UNBALANCED.

(** src/PoW/Common.h 28-43: siphash_keys, and 45-57: siphash_state (same four words). *)
Record sip : Type := mkSip { v0 : N; v1 : N; v2 : N; v3 : N }.

(** Truncation to uint64_t, written as a mask (equal to [mod 2^64], and faster to evaluate). *)
Definition word (x : N) : N := N.land x 18446744073709551615.

(** src/PoW/Common.h 69-72: rotl on uint64_t. *)
Definition rotl (x b : N) : N :=
  N.lor (word (N.shiftl x b)) (N.shiftr x (64 - b)).

(** src/PoW/Common.h 58-61: xor_lanes. *)
Definition xor_lanes (s : sip) : N :=
  N.lxor (N.lxor (v0 s) (v1 s)) (N.lxor (v2 s) (v3 s)).

(** src/PoW/Common.h 73-80: sip_round; [rotE] is the template parameter. *)
Definition sip_round (rotE : N) (s : sip) : sip :=
  let a0 := word ((v0 s) + (v1 s)) in
  let a2 := word ((v2 s) + (v3 s)) in
  let a1 := rotl (v1 s) 13 in
  let a3 := rotl (v3 s) 16 in
  let a1 := N.lxor a1 a0 in
  let a3 := N.lxor a3 a2 in
  let a0 := rotl a0 32 in
  let a2 := word (a2 + a1) in
  let a0 := word (a0 + a3) in
  let a1 := rotl a1 17 in
  let a3 := rotl a3 rotE in
  let a1 := N.lxor a1 a2 in
  let a3 := N.lxor a3 a0 in
  let a2 := rotl a2 32 in
  mkSip a0 a1 a2 a3.

(** src/PoW/Common.h 81-88: hash24. *)
Definition hash24 (rotE nonce : N) (s : sip) : sip :=
  let s := mkSip (v0 s) (v1 s) (v2 s) (N.lxor (v3 s) nonce) in
  let s := sip_round rotE (sip_round rotE s) in
  let s := mkSip (N.lxor (v0 s) nonce) (v1 s) (N.lxor (v2 s) 255) (v3 s) in
  sip_round rotE (sip_round rotE (sip_round rotE (sip_round rotE s))).

(** src/PoW/Common.h 98-102 (same loop in Cuckaroom.cpp 25-29 and Cuckarooz.cpp 23-27):
    the siphash state is carried from one nonce of the block to the next.  edge0 + i cannot
    wrap: edge0 is a multiple of 64 below 2^64 and i < 64. *)
Fixpoint sip_fill (rotE : N) (s : sip) (nonce : N) (count : nat) : list N :=
  match count with
  | O => []
  | S c => let s' := hash24 rotE nonce s in
           xor_lanes s' :: sip_fill rotE s' (nonce + 1) c
  end.

(** src/PoW/Common.h 94-111: sipblock<rotE>.  edge0 = edge & ~63; every entry but the last
    is xored with the last one. *)
Definition sipblock (rotE : N) (keys : sip) (edge : N) : N :=
  let buf := sip_fill rotE keys (edge - edge mod 64) 64 in
  let last := nth 63 buf 0 in
  let idx := N.to_nat (edge mod 64) in
  if (idx <? 63)%nat then N.lxor (nth idx buf 0) last else nth idx buf 0.

(** src/PoW/Cuckaroom.cpp 20-37 and src/PoW/Cuckarooz.cpp 19-35: entry i becomes the xor of
    the entries i .. 63. *)
Definition sipblock_suffix (keys : sip) (edge : N) : N :=
  let buf := sip_fill 21 keys (edge - edge mod 64) 64 in
  fold_right N.lxor 0 (skipn (N.to_nat (edge mod 64)) buf).

(** src/PoW/Cuckatoo.cpp 7-12: sipnode. *)
Definition sipnode (keys : sip) (edge uorv mask : N) : N :=
  N.land (xor_lanes (hash24 21 (add64 (mul64 2 edge) uorv) keys)) mask.

(** The checks shared by the edge loops: Cuckatoo.cpp 28-34, Cuckaroo.cpp 21-27,
    Cuckaroom.cpp 48-54, Cuckarooz.cpp 46-52 (edge too big, then not ascending). *)
Fixpoint scan_edges (mask : N) (prev : option N) (edges : list N) : verify_code :=
  match edges with
  | [] => POW_OK
  | e :: rest =>
      if mask <? e then POW_TOO_BIG
      else match prev with
           | Some p => if e <=? p then POW_TOO_SMALL else scan_edges mask (Some e) rest
           | None => scan_edges mask (Some e) rest
           end
  end.

(** Inner loop looking for the other endpoint: Cuckatoo.cpp 49-60, Cuckaroo.cpp 42-52,
    Cuckarood.cpp 44-50, Cuckarooz.cpp 67-77.  [ks] is the sequence of values of k.
    [None]: a second match was met (POW_BRANCH); [Some j]: the final value of j. *)
Fixpoint find_other (same : nat -> bool) (i : nat) (ks : list nat) (j : nat) : option nat :=
  match ks with
  | [] => Some j
  | k :: ks' =>
      if same k then (if (j =? i)%nat then find_other same i ks' k else None)
      else find_other same i ks' j
  end.

(** j ^ 1 *)
Definition flip (j : nat) : nat := if Nat.even j then S j else Nat.pred j.

(** The do-while loop: Cuckatoo.cpp 47-69, Cuckaroo.cpp 40-61, Cuckarood.cpp 43-54,
    Cuckarooz.cpp 65-86.  [step i] is the loop body up to `i = j ^ 1`: an error code or j. *)
Fixpoint follow (fuel : nat) (step : nat -> verify_code + nat) (i n : nat) : option verify_code :=
  match fuel with
  | O => None
  | S f =>
      match step i with
      | inl code => Some code
      | inr j =>
          let i' := flip j in
          let n' := S n in
          if (i' =? 0)%nat
          then Some (if (n' =? PROOFSIZE)%nat then POW_OK else POW_SHORT_CYCLE)
          else follow f step i' n'
      end
  end.

(** Values of k in `for (k = j = i; (k = (k + d) % 84) != i; )`. *)
Definition ks_cyclic (d count i : nat) : list nat :=
  map (fun t => ((i + d * t) mod (2 * PROOFSIZE))%nat) (seq 1 count).

(** src/PoW/Cuckatoo.cpp 15-72: verify_cuckatoo.  1 << edgeBits is undefined behaviour for
    edgeBits >= 64, which deserialization excludes (BlockHeader / ProofOfWork edge bits
    1 .. 63); the theorems assume edgeBits < 64. *)
Definition xor_list (l : list N) (x : N) : N := fold_left N.lxor l x.

Definition cuckatoo_step (uvs : nat -> N) (i : nat) : verify_code + nat :=
  match find_other (fun k => N.shiftr (uvs k) 1 =? N.shiftr (uvs i) 1) i (ks_cyclic 2 41 i) i with
  | None => inl POW_BRANCH
  | Some j => if (j =? i)%nat || (uvs j =? uvs i) then inl POW_DEAD_END else inr j
  end.

(** uvs[2n] = first endpoint of edge n, uvs[2n+1] = second endpoint. *)
Definition uvs_of (first second : list N) (k : nat) : N :=
  if Nat.even k then nth (Nat.div2 k) first 0 else nth (Nat.div2 k) second 0.

Definition verify_cuckatoo (fuel : nat) (edges : list N) (keys : sip) (edgeBits : N)
  : option verify_code :=
  let edgeMask := N.shiftl 1 edgeBits - 1 in
  match scan_edges edgeMask None edges with
  | POW_OK =>
      let us := map (fun e => sipnode keys e 0 edgeMask) edges in
      let vs := map (fun e => sipnode keys e 1 edgeMask) edges in
      if N.lor (xor_list us 1) (xor_list vs 1) =? 0
      then follow fuel (cuckatoo_step (uvs_of us vs)) 0 0
      else Some POW_NON_MATCHING
  | code => Some code
  end.

(** src/PoW/Cuckaroo.cpp 7-64: verify_cuckaroo. *)
Definition cuckaroo_step (uvs : nat -> N) (i : nat) : verify_code + nat :=
  match find_other (fun k => uvs k =? uvs i) i (ks_cyclic 2 41 i) i with
  | None => inl POW_BRANCH
  | Some j => if (j =? i)%nat then inl POW_DEAD_END else inr j
  end.

Definition verify_cuckaroo (fuel : nat) (edges : list N) (keys : sip) (edgeBits : N)
  : option verify_code :=
  let edgeMask := N.shiftl 1 edgeBits - 1 in
  match scan_edges edgeMask None edges with
  | POW_OK =>
      let us := map (fun e => N.land (sipblock 21 keys e) edgeMask) edges in
      let vs := map (fun e => N.land (N.shiftr (sipblock 21 keys e) 32) edgeMask) edges in
      if N.lor (xor_list us 0) (xor_list vs 0) =? 0
      then follow fuel (cuckaroo_step (uvs_of us vs)) 0 0
      else Some POW_NON_MATCHING
  | code => Some code
  end.

(** src/PoW/Cuckarood.cpp 25-39: the edge loop.  uvs[4*ndir[dir] + 2*dir] receives the
    endpoints, so the even edges fill the slots 0,1, 4,5, ... in order and the odd edges the
    slots 2,3, 6,7, ...: [d0] and [d1] are the edges seen so far per direction. *)
Fixpoint rood_scan (prev : option N) (edges d0 d1 : list N) : verify_code * (list N * list N) :=
  match edges with
  | [] => (POW_OK, (d0, d1))
  | e :: rest =>
      let dir1 := N.odd e in
      if (21 <=? length (if dir1 then d1 else d0))%nat then (POW_UNBALANCED, (d0, d1))
      else if N.shiftl 1 29 <=? e then (POW_TOO_BIG, (d0, d1))
      else if match prev with Some p => e <=? p | None => false end then (POW_TOO_SMALL, (d0, d1))
      else if dir1 then rood_scan (Some e) rest d0 (d1 ++ [e])
           else rood_scan (Some e) rest (d0 ++ [e]) d1
  end.

(** src/PoW/Cuckarood.cpp 8-15: NODE1MASK = 2^28 - 1. *)
Definition NODE1MASK : N := N.shiftl 1 28 - 1.

(** Contents of uvs[k]: k mod 4 = 0, 1: endpoints of the (k/4)-th even edge; 2, 3: of the
    (k/4)-th odd edge (Cuckarood.cpp 33-36). *)
Definition rood_uvs (keys : sip) (d0 d1 : list N) (k : nat) : N :=
  let e := nth (k / 4) (if (k mod 4 <? 2)%nat then d0 else d1) 0 in
  let x := sipblock 25 keys e in
  if Nat.even k then N.land x NODE1MASK else N.land (N.shiftr x 32) NODE1MASK.

(** Values of k in `for (k = (i % 4) ^ 2; k < 84; k += 4)` (Cuckarood.cpp 44). *)
Definition ks_rood (i : nat) : list nat :=
  let k0 := (if (i mod 4 <? 2)%nat then i mod 4 + 2 else i mod 4 - 2)%nat in
  map (fun t => (k0 + 4 * t)%nat) (seq 0 21).

(** src/PoW/Cuckarood.cpp 43-52. *)
Definition cuckarood_step (uvs : nat -> N) (i : nat) : verify_code + nat :=
  match find_other (fun k => uvs k =? uvs i) i (ks_rood i) i with
  | None => inl POW_BRANCH
  | Some j => if (j =? i)%nat then inl POW_DEAD_END else inr j
  end.

(** src/PoW/Cuckarood.cpp 18-56: verify_cuckarood. *)
Definition verify_cuckarood (fuel : nat) (edges : list N) (keys : sip) : option verify_code :=
  match rood_scan None edges [] [] with
  | (POW_OK, (d0, d1)) =>
      let us := map (fun e => N.land (sipblock 25 keys e) NODE1MASK) edges in
      let vs := map (fun e => N.land (N.shiftr (sipblock 25 keys e) 32) NODE1MASK) edges in
      if N.lor (xor_list us 0) (xor_list vs 0) =? 0
      then follow fuel (cuckarood_step (rood_uvs keys d0 d1)) 0 0
      else Some POW_NON_MATCHING
  | (code, _) => Some code
  end.

(** src/PoW/Cuckarooz.cpp 38-88: verify_cuckarooz (one node set, 30-bit nodes). *)
Definition cuckarooz_step (uvs : nat -> N) (i : nat) : verify_code + nat :=
  match find_other (fun k => uvs k =? uvs i) i (ks_cyclic 1 83 i) i with
  | None => inl POW_BRANCH
  | Some j => if (j =? i)%nat then inl POW_DEAD_END else inr j
  end.

Definition verify_cuckarooz (fuel : nat) (edges : list N) (keys : sip) : option verify_code :=
  let nodeMask := N.shiftl 1 30 - 1 in
  match scan_edges (N.shiftl 1 29 - 1) None edges with
  | POW_OK =>
      let us := map (fun e => N.land (sipblock_suffix keys e) nodeMask) edges in
      let vs := map (fun e => N.land (N.shiftr (sipblock_suffix keys e) 32) nodeMask) edges in
      if xor_list vs (xor_list us 0) =? 0
      then follow fuel (cuckarooz_step (uvs_of us vs)) 0 0
      else Some POW_NON_MATCHING
  | code => Some code
  end.

(** src/PoW/Cuckaroom.cpp 73-75: index of the first edge leaving the node [x]. *)
Fixpoint first_from (from : list N) (x : N) : option nat :=
  match from with
  | [] => None
  | y :: rest => if y =? x then Some O else option_map S (first_from rest x)
  end.

(** src/PoW/Cuckaroom.cpp 67-79: the do-while loop; [visited] lists the visited edges. *)
Fixpoint follow_room (fuel : nat) (from to : list N) (visited : list nat) (i n : nat)
  : option verify_code :=
  match fuel with
  | O => None
  | S f =>
      if existsb (Nat.eqb i) visited then Some POW_BRANCH
      else match first_from from (nth i to 0) with
           | None => Some POW_DEAD_END
           | Some nexti =>
               if (nexti =? 0)%nat
               then Some (if (S n =? PROOFSIZE)%nat then POW_OK else POW_SHORT_CYCLE)
               else follow_room f from to (i :: visited) nexti (S n)
           end
  end.

(** src/PoW/Cuckaroom.cpp 40-80: verify_cuckaroom. *)
Definition verify_cuckaroom (fuel : nat) (edges : list N) (keys : sip) : option verify_code :=
  let edgeMask := N.shiftl 1 29 - 1 in
  match scan_edges edgeMask None edges with
  | POW_OK =>
      let from := map (fun e => N.land (sipblock_suffix keys e) edgeMask) edges in
      let to := map (fun e => N.land (N.shiftr (sipblock_suffix keys e) 32) edgeMask) edges in
      if xor_list from 0 =? xor_list to 0
      then follow_room fuel from to [] 0 0
      else Some POW_NON_MATCHING
  | code => Some code
  end.

(** The five Validate functions: Cuckatoo.cpp 74-91, Cuckaroo.cpp 66-82, Cuckarood.cpp 58-75,
    Cuckaroom.cpp 82-99, Cuckarooz.cpp 90-107.  The keys are the four little-endian words of
    the Blake2b hash of the header without its proof of work; the hash is not modelled, so
    [keys] is a parameter. *)
Definition is_ok (r : option verify_code) : option bool :=
  option_map (fun c => match c with POW_OK => true | _ => false end) r.

Inductive pow_variant : Type := Cuckatoo | Cuckaroo | Cuckarood | Cuckaroom | Cuckarooz.

Definition Validate (variant : pow_variant) (fuel : nat) (keys : sip) (edgeBits : N)
  (proofNonces : list N) : option bool :=
  if negb (length proofNonces =? PROOFSIZE)%nat then Some false
  else is_ok (match variant with
              | Cuckatoo => verify_cuckatoo fuel proofNonces keys edgeBits
              | Cuckaroo => verify_cuckaroo fuel proofNonces keys edgeBits
              | Cuckarood => verify_cuckarood fuel proofNonces keys
              | Cuckaroom => verify_cuckaroom fuel proofNonces keys
              | Cuckarooz => verify_cuckarooz fuel proofNonces keys
              end).

(** src/PoW/PoWValidator.cpp 40-53 (IsPoWValid): which verifier a header of the given
    version and edge bits is given to. *)
Definition variant_for (version edgeBits : N) : pow_variant :=
  if edgeBits =? 29 then
    (if version =? 1 then Cuckaroo
     else if version =? 2 then Cuckarood
     else if version =? 3 then Cuckaroom
     else Cuckarooz)
  else Cuckatoo.
