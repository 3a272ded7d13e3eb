(** Model of slatepack messages: include/Wallet/Models/Slatepack/SlatepackMessage.h, and of Armor.h:20-64 around them. *)
From Verif Require Import Base Bytes FileModel SerialModel TextModel Bech32Model.
Local Open Scope N_scope.

(** SlatepackMessage.h:17-18, 100-104: the mode is a byte; 0 is PLAINTEXT and 1 is ENCRYPTED. *)
Definition PLAINTEXT : N := 0.
Definition ENCRYPTED : N := 1.
(** SlatepackMessage.h:111-117. Addresses are the 32 bytes of their keys. *)
Record SlatepackMessage := mkMessage {
  m_major : N; m_minor : N; m_mode : N; m_sender : bytes; m_recipients : list bytes; m_payload : bytes }.

Section Message.
(** src/Crypto/ED25519.cpp:24: IsValid. *)
Variable IsValid : bytes -> bool.
(** src/Crypto/Age.cpp: Encrypt for the given recipients, and Decrypt with a key pair. Encryption is randomized; one
    function stands for any choice. *)
Variable keypair : Type.
Variable AgeEncrypt : list bytes -> bytes -> outcome bytes.
Variable AgeDecrypt : keypair -> bytes -> outcome bytes.
(** include/Crypto/Hasher.h: SHA256, used by the armor. *)
Variable SHA256 : bytes -> bytes.

(** All the addresses, one after the other. *)
Fixpoint serialize_addresses (l : list bytes) : outcome bytes :=
  match l with
  | [] => Ret []
  | a :: l' => let* x := SlatepackAddress_Serialize a in let* y := serialize_addresses l' in Ret (x ++ y)
  end.
(** SlatepackMessage.h:218-226: the recipients in the metadata. A failed assertion is undefined. *)
Definition recipients_bytes (rs : list bytes) : outcome bytes :=
  match rs with
  | [] => Ret []
  | _ => if 65535 <? nlen rs then Fault else
         let* x := serialize_addresses rs in Ret (Append 2 (nlen rs mod W16) ++ x)
  end.
(** SlatepackMessage.h:207-232: the part of EncryptPayload before the encryption. *)
Definition to_encrypt (m : SlatepackMessage) : outcome bytes :=
  let* sender := SlatepackAddress_Serialize (m_sender m) in
  let* rest := recipients_bytes (m_recipients m) in
  let flags := match m_recipients m with [] => 1 | _ => 3 end in
  Ret (AppendByteVector (Append 2 flags ++ sender ++ rest) LenU32 ++ AppendByteVector (m_payload m) LenNone).
(** SlatepackMessage.h:207-243: EncryptPayload. *)
Definition EncryptPayload (m : SlatepackMessage) (recipients : list bytes) : outcome bytes :=
  let* x := to_encrypt m in AgeEncrypt recipients x.
(** SlatepackMessage.h:119-148: Encrypt. *)
Definition Message_Encrypt (m : SlatepackMessage) (recipients : list bytes) : outcome bytes :=
  let has_sender := ((m_mode m =? PLAINTEXT) && negb (SlatepackAddress_IsNull (m_sender m)))%bool in
  let* opt := (if has_sender then SlatepackAddress_Serialize (m_sender m) else Ret []) in
  let* payload := (if m_mode m =? PLAINTEXT then Ret (m_payload m) else EncryptPayload m recipients) in
  Ret (Append 1 (m_major m) ++ Append 1 (m_minor m) ++ Append 1 (m_mode m) ++ Append 2 (if has_sender then 1 else 0) ++
       AppendByteVector opt LenU32 ++ AppendByteVector payload LenU64).

(** Reading from a buffer of its own (ByteBuffer.h:17-22), of which the rest is ignored. *)
Definition inner {A} (r : reader A) (data : bytes) : reader A := fun b =>
  match r (mkBB 0 data 1) with Ret (a, _) => Ret (a, b) | Throw => Throw | Fault => Fault end.
(** SlatepackMessage.h:76-95: Metadata::Deserialize. *)
Definition Metadata_Deserialize : reader (bytes * list bytes) :=
  let! size := ReadU32 in
  let! data := ReadVector size in
  inner (let! opt_flags := ReadU16 in
         let! sender := (if N.testbit opt_flags 0 then SlatepackAddress_Deserialize IsValid else rret (repeat 0 32)) in
         let! recipients := (if N.testbit opt_flags 1
                             then let! n := ReadU16 in read_many (SlatepackAddress_Deserialize IsValid) (N.to_nat n)
                             else rret []) in
         rret (sender, recipients)) data.
(** SlatepackMessage.h:245-257: DecryptPayload. *)
Definition DecryptPayload (k : keypair) (m : SlatepackMessage) : outcome SlatepackMessage :=
  let* decrypted := AgeDecrypt k (m_payload m) in
  let* r := (let! md := Metadata_Deserialize in let! payload := ReadRemainingBytes in rret (md, payload)) (mkBB 0 decrypted 1) in
  let '((sender, recipients), payload) := fst r in
  Ret (mkMessage (m_major m) (m_minor m) (m_mode m) sender recipients payload).
(** SlatepackMessage.h:150-170: the fields Decrypt reads. *)
Definition Message_Read : reader SlatepackMessage :=
  let! major := ReadU8 in
  let! minor := ReadU8 in
  let! mode := ReadU8 in
  let! opt_flags := ReadU16 in
  let! opt_fields_len := ReadU32 in
  let! opt_fields := ReadVector opt_fields_len in
  let! sender := (if N.testbit opt_flags 0 then inner (SlatepackAddress_Deserialize IsValid) opt_fields else rret (repeat 0 32)) in
  let! payload_size := ReadU64 in
  let! payload := ReadVector payload_size in
  rret (mkMessage major minor mode sender [] payload).
(** SlatepackMessage.h:150-174: Decrypt. *)
Definition Message_Decrypt (k : keypair) (encrypted : bytes) : outcome SlatepackMessage :=
  let* r := Message_Read (mkBB 0 encrypted 1) in
  if m_mode (fst r) =? ENCRYPTED then DecryptPayload k (fst r) else Ret (fst r).

(** Armor.h:24-28, 30-39: Pack, given the bytes of the slate; [PackBytes] is the armor itself. *)
Definition Armor_Pack (sender slate : bytes) (recipients : list bytes) : outcome bytes :=
  let m := mkMessage 1 0 (match recipients with [] => PLAINTEXT | _ => ENCRYPTED end) sender [] slate in
  let* serialized := Message_Encrypt m recipients in PackBytes SHA256 serialized.
(** Armor.h:41-64: Unpack. *)
Definition Armor_Unpack (armored : bytes) (k : keypair) : outcome SlatepackMessage :=
  let* b := UnpackBytes SHA256 armored in Message_Decrypt k b.
End Message.
