(** C10, C11: the primitive reads and writes. *)
From Verif Require Import Base Bytes FileModel SerialModel SerialSpec SerialProofs.
Local Open Scope N_scope.

(** C10. Reading [n] bytes returns exactly the next [n] bytes and advances by [n] when they are
    there, and fails otherwise, for every size the code passes except an attacker-chosen 64-bit one. *)
Theorem C10_read_is_next_bytes n b : good_buffer b -> n <= 2 ^ 63 ->
  ReadVector n b =
    if m_index b + n <=? N.of_nat (length (m_bytes b))
    then Ret (firstn (N.to_nat n) (skipn (N.to_nat (m_index b)) (m_bytes b)),
              mkBB (m_index b + n) (m_bytes b) (m_protocolVersion b))
    else Throw.
Proof.
  intros [G1 G2] Hn. unfold ReadVector. fold (nlen (m_bytes b)) in *. rewrite p63 in *.
  rewrite add64_small by (clear -G1 G2 Hn; lia).
  destruct (N.leb_spec (m_index b + n) (nlen (m_bytes b))).
  - destruct (N.ltb_spec (nlen (m_bytes b)) (m_index b + n)); [clear -H H0; lia | reflexivity].
  - destruct (N.ltb_spec (nlen (m_bytes b)) (m_index b + n)); [reflexivity | clear -H H0; lia].
Qed.
Print Assumptions C10_read_is_next_bytes.

(** Integers are the big-endian value of those bytes. *)
Theorem C10_integer_reads k b : good_buffer b -> (k <= 8)%nat ->
  ReadBigEndian k b =
    if m_index b + N.of_nat k <=? N.of_nat (length (m_bytes b))
    then Ret (be_value (firstn k (skipn (N.to_nat (m_index b)) (m_bytes b))),
              mkBB (m_index b + N.of_nat k) (m_bytes b) (m_protocolVersion b))
    else Throw.
Proof.
  intros G Hk. unfold ReadBigEndian, rbind. rewrite C10_read_is_next_bytes by (auto; apply small_nat; lia).
  destruct (_ <=? _); [|reflexivity]. cbn [obind fst snd rret]. unfold rret. rewrite le_value_rev, Nat2N.id. reflexivity.
Qed.
Print Assumptions C10_integer_reads.

(** A length-prefixed string: returned whole, or refused, unless the length field makes the 64-bit
    cursor wrap, and then the range check passes and memory outside the buffer is addressed. *)
Theorem C10_string_read b : good_buffer b -> is_bytes (m_bytes b) ->
  let rest := skipn (N.to_nat (m_index b)) (m_bytes b) in
  let len := be_value (firstn 8 rest) in
  ReadVarStr b =
    if N.of_nat (length rest) <? 8 then Throw
    else if len <=? N.of_nat (length rest) - 8
    then Ret (firstn (N.to_nat len) (skipn 8 rest), mkBB (m_index b + 8 + len) (m_bytes b) (m_protocolVersion b))
    else if m_index b + 8 + len <? W64 then Throw else Fault.
Proof.
  intros G B rest len. pose proof G as [G1 G2]. rewrite p63 in G2.
  assert (LR : N.of_nat (length rest) = N.of_nat (length (m_bytes b)) - m_index b).
  { unfold rest. rewrite skipn_length. lia. }
  unfold ReadVarStr, rbind, ReadU64. rewrite C10_integer_reads by (auto; lia).
  change (N.of_nat 8) with 8. fold rest. fold len.
  destruct (N.ltb_spec (N.of_nat (length rest)) 8) as [Hs|Hs].
  { destruct (N.leb_spec (m_index b + 8) (N.of_nat (length (m_bytes b)))) as [Q|Q]; [clear -Hs Q LR; lia | reflexivity]. }
  destruct (N.leb_spec (m_index b + 8) (N.of_nat (length (m_bytes b)))) as [Q|Q]; [|clear -Hs Q LR G1; lia].
  cbn [obind fst snd].
  assert (Bl : len < W64).
  { unfold len. assert (L8 : length (firstn 8 rest) = 8%nat) by (rewrite firstn_length; lia).
    assert (HB : is_bytes (firstn 8 rest)).
    { unfold rest. rewrite <- (firstn_skipn (N.to_nat (m_index b)) (m_bytes b)) in B. apply Forall_app in B. destruct B as [_ B].
      rewrite <- (firstn_skipn 8 (skipn (N.to_nat (m_index b)) (m_bytes b))) in B. apply Forall_app in B. apply B. }
    pose proof (be_value_bound _ HB) as X. rewrite L8 in X. exact X. }
  clearbody len.
  assert (SK : skipn (N.to_nat (m_index b + 8)) (m_bytes b) = skipn 8 rest).
  { unfold rest. rewrite <- skipn_plus. f_equal. clear; lia. }
  destruct (N.eqb_spec len 0) as [->|L0].
  { unfold rret. rewrite N.add_0_r.
    destruct (N.leb_spec 0 (N.of_nat (length rest) - 8)); [reflexivity | clear -H; lia]. }
  unfold ReadVector. cbn [m_index m_bytes m_protocolVersion]. unfold nlen, slice. rewrite SK.
  destruct (N.leb_spec len (N.of_nat (length rest) - 8)) as [F|F].
  - assert (I : m_index b + 8 + len <= N.of_nat (length (m_bytes b))) by (clear -F LR G1 Q; lia).
    rewrite add64_small by (clear -I G2; lia).
    destruct (N.ltb_spec (N.of_nat (length (m_bytes b))) (m_index b + 8 + len)); [clear -I H; lia|].
    destruct (N.leb_spec (m_index b + 8 + len) (N.of_nat (length (m_bytes b)))); [reflexivity | clear -I H0; lia].
  - assert (I : N.of_nat (length (m_bytes b)) < m_index b + 8 + len) by (clear -F LR G1 Q; lia).
    destruct (N.leb_spec (m_index b + 8 + len) (N.of_nat (length (m_bytes b)))); [clear -I H; lia|].
    destruct (N.ltb_spec (m_index b + 8 + len) W64) as [w|w].
    + rewrite add64_small by exact w.
      destruct (N.ltb_spec (N.of_nat (length (m_bytes b))) (m_index b + 8 + len)); [reflexivity | clear -I H0; lia].
    + assert (R : add64 (m_index b + 8) len = m_index b + 8 + len - W64).
      { unfold add64. symmetry. apply (N.mod_unique _ _ 1); clear -Bl w Q G2; lia. }
      rewrite R. destruct (N.ltb_spec (N.of_nat (length (m_bytes b))) (m_index b + 8 + len - W64)); [|reflexivity].
      exfalso. clear -H0 Bl Q. lia.
Qed.
Print Assumptions C10_string_read.

(** The exception is reachable: a 9-byte message whose length field is 2^64 - 8. *)
Theorem C10_length_wraps_refuted :
  exists b, good_buffer b /\ is_bytes (m_bytes b) /\ ReadVarStr b = Fault.
Proof.
  exists (mkBB 0 [255; 255; 255; 255; 255; 255; 255; 248; 65] 1). split; [|split].
  - split; vm_compute; [intro X; discriminate X | reflexivity].
  - repeat constructor.
  - vm_compute. reflexivity.
Qed.
Print Assumptions C10_length_wraps_refuted.

Example C10_case :
  let b := mkBB 1 [7; 1; 2; 3; 4] 1 in
  good_buffer b /\ ReadU16 b = Ret (258, mkBB 3 [7; 1; 2; 3; 4] 1) /\ ReadVector 5 b = Throw /\
  ReadVarStr (mkBB 0 [0; 0; 0; 0; 0; 0; 0; 2; 65; 66; 67] 1) = Ret ([65; 66], mkBB 10 [0; 0; 0; 0; 0; 0; 0; 2; 65; 66; 67] 1).
Proof. split; [split; vm_compute; [intro X; discriminate X | reflexivity] | vm_compute; auto]. Qed.

(** C11. Every sequence of fields: written in the specified format, and reading back the same kinds
    of fields gives the same values, wherever the encoding starts and whatever follows it. *)
Theorem C11_written_format f : field_ok f -> N.of_nat (length (field_bytes f)) < W64 -> write_field f = field_bytes f.
Proof. exact (write_field_format f). Qed.
Print Assumptions C11_written_format.

Theorem C11_fields_round_trip v fs : Forall field_ok fs ->
  decodes v (read_fields (map kind_of fs)) (flat_map field_bytes fs) fs.
Proof. exact (fields_round_trip v fs). Qed.
Print Assumptions C11_fields_round_trip.

(** No encoding is a proper prefix of another of the same kinds. *)
Theorem C11_prefix_free fs gs s t : Forall field_ok fs -> Forall field_ok gs -> map kind_of fs = map kind_of gs ->
  N.of_nat (length (flat_map field_bytes fs ++ s)) < W64 ->
  flat_map field_bytes fs ++ s = flat_map field_bytes gs ++ t -> fs = gs /\ s = t.
Proof. exact (fields_prefix_free fs gs s t). Qed.
Print Assumptions C11_prefix_free.

Example C11_case :
  let fs := [FUInt 2 513; FInt 8 (-5)%Z; FVarStr [104; 105]; FUInt64LE 1; FRaw [9; 9; 9]] in
  Forall field_ok fs /\
  flat_map field_bytes fs = [2; 1; 255; 255; 255; 255; 255; 255; 255; 251; 0; 0; 0; 0; 0; 0; 0; 2; 104; 105; 1; 0; 0; 0; 0; 0; 0; 0; 9; 9; 9].
Proof. split; [|vm_compute; reflexivity]. repeat constructor; cbn; try lia; reflexivity. Qed.
