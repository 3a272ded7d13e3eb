(** Properties C04, C05, C06: hashing of an MMR.  [H] stands for Blake2b and is arbitrary. *)
From Verif Require Import Base Bytes MMRIndexModel MMRHashModel MMRHashSpec MMRHashProofs.
Local Open Scope N_scope.

(** C04: appending any sequence (fewer than 2^63 leaves) to an empty MMR succeeds and stores exactly the
    node hashes, in post-order, of the mountain range over that sequence. *)
Theorem C04_append_builds_mmr : forall (H : bytes -> bytes) (xs : list bytes),
  2 * N.of_nat (length xs) < W64 ->
  exists ts, is_mmr ts xs /\ AppendAll H [] xs = Ret (mmr_hashes H 0 ts).
Proof. exact append_correct. Qed.
Print Assumptions C04_append_builds_mmr.

(** the mountain range over a sequence is unique *)
Theorem C04_mmr_unique : forall ts us xs, is_mmr ts xs -> is_mmr us xs -> ts = us.
Proof. exact is_mmr_unique. Qed.
Print Assumptions C04_mmr_unique.

(** the root at the size reached after the first [xs] leaves (whatever was appended later) is the bagging
    of the peaks of the mountain range over [xs]; provided no hash is all zero *)
Theorem C04_root : forall (H : bytes -> bytes) (xs ys : list bytes),
  (forall m, H m <> repeat 0 32) -> 2 * N.of_nat (length (xs ++ ys)) < W64 ->
  exists file ts, AppendAll H [] (xs ++ ys) = Ret file /\ is_mmr ts xs /\
    Root H file (lidx_position (LeafIndex_At (N.of_nat (length xs)))) = Ret (mmr_root H ts).
Proof. exact root_after_appends. Qed.
Print Assumptions C04_root.

(** C05: rewinding to the leaf count reached after [xs] restores the very file that appending only [xs]
    produces; so roots and further appends coincide. *)
Theorem C05_rewind_is_undo : forall (H : bytes -> bytes) (xs ys : list bytes),
  2 * N.of_nat (length (xs ++ ys)) < W64 ->
  exists f1 f2, AppendAll H [] xs = Ret f1 /\ AppendAll H f1 ys = Ret f2 /\
    RewindHashes f2 (N.of_nat (length xs)) = Ret f1.
Proof. exact rewind_correct. Qed.
Print Assumptions C05_rewind_is_undo.

(** C06: equal roots of equally long sequences mean equal sequences or an explicit hash collision. *)
Theorem C06_root_binds_leaves : forall (H : bytes -> bytes) xs ys fx fy r,
  (forall m, length (H m) = 32%nat) -> (forall m, H m <> repeat 0 32) ->
  2 * N.of_nat (length xs) < W64 -> length xs = length ys ->
  AppendAll H [] xs = Ret fx -> AppendAll H [] ys = Ret fy ->
  Root H fx (GetSize fx) = Ret r -> Root H fy (GetSize fy) = Ret r ->
  xs = ys \/ exists m m', m <> m' /\ H m = H m'.
Proof. exact root_binding. Qed.
Print Assumptions C06_root_binds_leaves.

(** A hash function meeting the hypotheses, and a run with three leaves. *)
Definition toy_hash (m : bytes) : bytes :=
  1 :: firstn 31 (map (fun x => x mod 256) (rev m) ++ repeat 7 31).

Example toy_hash_ok : (forall m, length (toy_hash m) = 32%nat) /\ (forall m, toy_hash m <> repeat 0 32).
Proof.
  split; intros m.
  - unfold toy_hash. cbn [length]. rewrite firstn_length, app_length, repeat_length. lia.
  - unfold toy_hash. discriminate.
Qed.

Example C04_example :
  is_mmr [DNode (DLeaf [1]) (DLeaf [2]); DLeaf [3]] [[1]; [2]; [3]] /\
  AppendAll toy_hash [] [[1]; [2]; [3]] = Ret (mmr_hashes toy_hash 0 [DNode (DLeaf [1]) (DLeaf [2]); DLeaf [3]]) /\
  length (mmr_hashes toy_hash 0 [DNode (DLeaf [1]) (DLeaf [2]); DLeaf [3]]) = 4%nat.
Proof.
  split; [|split; vm_compute; reflexivity].
  repeat split; repeat constructor.
Qed.
