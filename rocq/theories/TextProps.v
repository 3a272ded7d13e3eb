(** C41: hexadecimal, Base58, Base58 with checksum, and slatepack armor.
    The hash function is arbitrary (32 bytes out); [sha256] is FIPS 180-4, used for concrete witnesses. *)
From Coq Require Import Ascii String.
From Verif Require Import Base Bytes FileModel TextModel TextSpec Sha256Spec TextProofs TextCheck.
Local Open Scope N_scope.
Local Open Scope list_scope.

Definition hash_like (H : bytes -> bytes) : Prop := forall m, length (H m) = 32%nat /\ is_bytes (H m).
(** the checksum: the first four bytes of the hash of the hash *)
Definition check4 (H : bytes -> bytes) (x : bytes) : bytes := firstn 4 (H (H x)).

(** Reading hexadecimal returns exactly the bytes a text writes, refuses every other text, and never
    reads outside its input. *)
Theorem C41_hex_exact s : is_bytes s ->
  (forall d, FromHex s = Ret d <-> hex_text s d) /\ FromHex s <> Fault.
Proof. exact (fromhex_iff s). Qed.

Theorem C41_hex_roundtrip d : is_bytes d -> FromHex (ConvertToHex d) = Ret d.
Proof. exact (hex_roundtrip d). Qed.

(** Base58 of a C string: exactly the bytes it writes. *)
Theorem C41_base58_exact s : is_bytes s -> ~ In 0 s ->
  (forall d, Base58_Decode s = Ret d <-> base58_text s d) /\ Base58_Decode s <> Fault.
Proof. exact (decode_true_spec s). Qed.

Theorem C41_base58_roundtrip d : is_bytes d -> exists s, Base58_Encode d = Ret s /\ Base58_Decode s = Ret d.
Proof. exact (base58_roundtrip d). Qed.

(** Base58 with a checksum at the end: a text is accepted exactly when it writes bytes followed by
    their checksum, so every corrupted checksum is refused. *)
Theorem C41_base58check_exact H s : hash_like H -> is_bytes s -> ~ In 0 s ->
  (forall x, DecodeCheck H s = Ret x <-> base58_text s (x ++ check4 H x)) /\ DecodeCheck H s <> Fault.
Proof. intros Hh. exact (decode_check_iff H Hh s). Qed.

Theorem C41_base58check_roundtrip H x : hash_like H -> is_bytes x ->
  exists s, EncodeCheck H x = Ret s /\ DecodeCheck H s = Ret x.
Proof. intros Hh. exact (check_roundtrip H Hh x). Qed.

(** The variant the armor uses, checksum first: accepted exactly when the number written is that of a
    checksum followed by its bytes, the checksum not beginning with a zero. *)
Theorem C41_simplecheck_exact H s : hash_like H -> is_bytes s -> ~ In 0 s ->
  (forall x, SimpleDecodeCheck H s = Ret x <-> base58_number s (check4 H x ++ x)) /\ SimpleDecodeCheck H s <> Fault.
Proof. intros Hh. exact (simple_check_iff H Hh s). Qed.

(** The armor returns what was packed, PROVIDED the first checksum byte is not zero. *)
Theorem C41_armor_partial H x : hash_like H -> is_bytes x -> nth 0 (check4 H x) 0 <> 0 ->
  exists s, PackBytes H x = Ret s /\ UnpackBytes H s = Ret x.
Proof.
  intros Hh Hb Hn. apply (armor_roundtrip H Hh x Hb). unfold first_check_byte. unfold check4 in Hn.
  fold (SHA256d H x) in Hn. destruct (SHA256d H x) as [|a l]; [exact Hn|exact Hn].
Qed.

(** Otherwise it never does: a slatepack whose checksum begins with a zero byte cannot be read back. *)
Theorem C41_armor_zero_lost H x s : hash_like H -> is_bytes x -> nth 0 (check4 H x) 0 = 0 ->
  PackBytes H x = Ret s -> UnpackBytes H s <> Ret x.
Proof.
  intros Hh Hb Hn. apply (armor_lost H Hh x s Hb). unfold first_check_byte. unfold check4 in Hn.
  fold (SHA256d H x) in Hn. destruct (SHA256d H x) as [|a l]; exact Hn.
Qed.

(** Whatever armored text is accepted has both frame words, one payload, and a right checksum. *)
Theorem C41_unpack_only H s x : hash_like H -> is_bytes s -> ~ In 0 s -> UnpackBytes H s = Ret x ->
  exists n0 n1 n2 payload tail,
    unblank s = repeat 46 n0 ++ text "BEGINSLATEPACK" ++ repeat 46 (S n1) ++ payload ++ repeat 46 (S n2) ++ text "ENDSLATEPACK" ++ tail /\
    (tail = [] \/ exists t, tail = 46 :: t) /\ ~ In 46 payload /\
    base58_number payload (check4 H x ++ x).
Proof. intros Hh. exact (unpack_only H Hh s x). Qed.

Definition value (o : outcome bytes) : bytes := match o with Ret s => s | _ => [] end.

(* ------------------------------------------------------------------ the real hash is such a hash *)
Lemma sha_rounds_length kw : forall a b c d e f g h, length (sha_rounds kw a b c d e f g h) = 8%nat.
Proof. induction kw as [|[k w] kw IH]; intros; cbn [sha_rounds]; [reflexivity|]. apply IH. Qed.
Lemma sha_block_length h b : length h = 8%nat -> length (sha_block h b) = 8%nat.
Proof.
  intros L. unfold sha_block. do 9 (destruct h as [|? h]; try discriminate L).
  rewrite map_length, combine_length, sha_rounds_length. reflexivity.
Qed.
Lemma sha_blocks_length k : forall h m, length h = 8%nat -> length (sha_blocks k h m) = 8%nat.
Proof. induction k as [|k IH]; intros h m L; cbn [sha_blocks]; [exact L|]. apply IH, sha_block_length, L. Qed.
Lemma sha256_like : hash_like sha256.
Proof.
  intros m. unfold sha256. pose proof (sha_blocks_length (length (sha_pad m) / 64) sha_H0 (sha_pad m) eq_refl) as L.
  set (w := sha_blocks _ _ _) in *. clearbody w. split.
  - assert (Q : forall l, length (flat_map (be_bytes 4) l) = (4 * length l)%nat).
    { induction l as [|x l IH]; [reflexivity|]. cbn [flat_map length]. rewrite app_length, be_bytes_length, IH. lia. }
    rewrite Q, L. reflexivity.
  - induction w as [|x w IH]; [constructor|]. clear L. cbn [flat_map]. apply Forall_app. split; [apply be_bytes_are_bytes|].
    clear IH. induction w as [|y w IH]; [constructor|]. cbn [flat_map]. apply Forall_app. split; [apply be_bytes_are_bytes|exact IH].
Qed.

(** The promise of the property is false of the armor, with SHA-256 itself: the one-byte message 8A. *)
Theorem C41_armor_refuted : exists x s, is_bytes x /\ PackBytes sha256 x = Ret s /\ UnpackBytes sha256 s = Throw.
Proof.
  exists [138], (value (PackBytes sha256 [138])). split; [repeat constructor|]. split; vm_compute; reflexivity.
Qed.

(** The hypotheses are met: a two-byte message makes the trip through the armor with SHA-256. *)
Example C41_armor_example : nth 0 (check4 sha256 [1; 2]) 0 <> 0 /\
  omap (UnpackBytes sha256) (PackBytes sha256 [1; 2]) = Ret (Ret [1; 2]).
Proof. split; [vm_compute; discriminate|]. vm_compute. reflexivity. Qed.
Example C41_hex_example : FromHex (text "  0xDeadBEEF ") = Ret [222; 173; 190; 239] /\ ConvertToHex [222; 173] = text "dead".
Proof. split; vm_compute; reflexivity. Qed.
Example C41_base58_example : Base58_Encode [0; 0; 1; 2; 3] = Ret (text "11Ldp") /\ Base58_Decode (text " 11Ldp") = Ret [0; 0; 1; 2; 3].
Proof. split; vm_compute; reflexivity. Qed.
Example C41_base58check_example : exists s, EncodeCheck sha256 [0; 7] = Ret s /\ DecodeCheck sha256 s = Ret [0; 7] /\
  DecodeCheck sha256 (removelast s ++ [50]) = Throw.
Proof. exists (value (EncodeCheck sha256 [0; 7])). split; [vm_compute; reflexivity|]. split; vm_compute; reflexivity. Qed.

Definition text_theorems := (@C41_hex_exact, @C41_hex_roundtrip, @C41_base58_exact, @C41_base58_roundtrip, @C41_base58check_exact,
  @C41_base58check_roundtrip, @C41_simplecheck_exact, @C41_armor_partial, @C41_armor_zero_lost, @C41_unpack_only, C41_armor_refuted).
Print Assumptions text_theorems.
