(** Model of the encryption of slatepack messages: src/Crypto/Age.cpp, include/Crypto/Age/{Header,RecipientLine}.h, include/Crypto/ChaChaPoly.h,
    include/Core/Serialization/Base64.h with the encoder of cppcodec (deps/cppcodec/cppcodec/detail/{base64,stream_codec}.hpp).
    Not modelled: the ciphers, curves and hashes themselves, which are the fields of [age_crypto]; the random generator, whose results are arguments. *)
From Coq Require Import Ascii String.
From Verif Require Import Base Bytes FileModel TextModel.
Local Open Scope N_scope.
Local Open Scope list_scope.

(** ** Base64 *)
(** deps/cppcodec/cppcodec/base64_rfc4648.hpp:34-40 *)
Definition b64_alphabet : bytes := chars "ABCDEFGHIJKLMNOPQRSTUVWXYZabcdefghijklmnopqrstuvwxyz0123456789+/".
(** base64_rfc4648.hpp:51-54 symbol *)
Definition symbol (i : N) : N := nth (N.to_nat i) b64_alphabet 0.
(** detail/base64.hpp:57-80 index and index_last, detail/stream_codec.hpp:116-147 encode; Base64.h:14-15: nothing is padded *)
Fixpoint EncodeUnpadded (b : bytes) : bytes :=
  match b with
  | [] => []
  | [x] => [symbol (x / 4); symbol (x mod 4 * 16)]
  | [x; y] => [symbol (x / 4); symbol (x mod 4 * 16 + y / 16); symbol (y mod 16 * 4)]
  | x :: y :: z :: r =>
      symbol (x / 4) :: symbol (x mod 4 * 16 + y / 16) :: symbol (y mod 16 * 4 + z / 64) :: symbol (z mod 64) :: EncodeUnpadded r
  end.
(** stream_codec.hpp:185-280: what a character stands for *)
Inductive b64_class := Index (i : N) | Eof | Padding | Invalid.
Fixpoint index_in (l : bytes) (i : N) (c : N) : option N :=
  match l with [] => None | x :: l' => if x =? c then Some i else index_in l' (i + 1) c end.
Definition for_symbol (c : N) : b64_class :=
  match index_in b64_alphabet 0 c with Some i => Index i | None => if c =? 0 then Eof else if c =? 61 then Padding else Invalid end.
(** base64.hpp:97-105 decode_block *)
Definition decode_block (i0 i1 i2 i3 : N) : bytes := [i0 * 4 + i1 / 16; i1 mod 16 * 16 + i2 / 4; i2 mod 4 * 64 + i3].
(** base64.hpp:107-127 decode_tail, called when a block has been begun (stream_codec.hpp:384-399) *)
Definition decode_tail (idx : list N) : outcome bytes :=
  match idx with
  | [] => Ret []
  | [_] => Throw
  | [i0; i1] => Ret [i0 * 4 + i1 / 16]
  | i0 :: i1 :: i2 :: _ => Ret [i0 * 4 + i1 / 16; i1 mod 16 * 16 + i2 / 4]
  end.
(** stream_codec.hpp:360-383: after the first padding character, [n] characters of the block are read *)
Fixpoint paddings (n : N) (s : bytes) : bool :=
  match s with
  | [] => n =? 4
  | c :: s' => match for_symbol c with
               | Eof => n =? 4
               | Padding => if 4 <? n + 1 then false else paddings (n + 1) s'
               | _ => false
               end
  end.
(** stream_codec.hpp:319-400 decode; [acc] are the indexes read of the present block *)
Fixpoint decode_from (acc : list N) (s : bytes) : outcome bytes :=
  match s with
  | [] => decode_tail acc
  | c :: s' =>
      match for_symbol c with
      | Index i => match acc with
                   | [i0; i1; i2] => omap (fun r => decode_block i0 i1 i2 i ++ r) (decode_from [] s')
                   | _ => decode_from (acc ++ [i]) s'
                   end
      | Invalid => Throw
      | Eof => decode_tail acc
      | Padding => match acc with [] => Throw | _ => if paddings (nlen acc + 1) s' then decode_tail acc else Throw end
      end
  end.
Definition DecodeUnpadded (s : bytes) : outcome bytes := decode_from [] s.

(** ** The ciphers *)
Record age_crypto := mkCrypto {
  (** include/Crypto/X25519.h:72-85: the shared secret of a secret and a public key; it fails for some public keys *)
  ECDH : bytes -> bytes -> option bytes;
  (** X25519.h:87-96 ToPubKey *)
  ToPubKey : bytes -> bytes;
  (** include/Crypto/KDF.h HKDF: salt, label and key *)
  HKDF : option bytes -> bytes -> bytes -> bytes;
  (** include/Crypto/Hasher.h HMAC_SHA256 *)
  HMAC_SHA256 : bytes -> bytes -> bytes;
  (** deps/chachapoly: key, nonce and text give the ciphertext followed by the tag *)
  Seal : bytes -> bytes -> bytes -> bytes;
  (** the same backwards; none when the tag is another *)
  Open : bytes -> bytes -> bytes -> option bytes }.

Section Age.
Variable C : age_crypto.

(** ** ChaChaPoly.h *)
(** 9-11 *)
Definition CHUNK_SIZE : nat := N.to_nat 65536.
Definition TAG_SIZE : nat := 16.
Definition ENCRYPTED_CHUNK_SIZE : nat := CHUNK_SIZE + TAG_SIZE.
(** include/Crypto/Models/BigInteger.h:170-185: the counter is increased at its last byte. Simplification: when all bytes are 255 the code would
    run off the array; that needs 2^88 chunks, more than memory can hold. *)
Fixpoint bump_le (c : bytes) : bytes :=
  match c with [] => [] | x :: c' => if x =? 255 then 0 :: bump_le c' else x + 1 :: c' end.
Definition bump (c : bytes) : bytes := rev (bump_le (rev c)).
Definition is_nil {A} (l : list A) : bool := match l with [] => true | _ => false end.
(** 25-47 *)
Definition CEncrypt (key nonce decrypted : bytes) : bytes := Seal C key nonce decrypted.
(** 49-76: the loop; what is left is never longer than [fuel] *)
Fixpoint encrypt_loop (fuel : nat) (key counter data : bytes) : bytes :=
  match fuel with
  | O => []
  | S fuel' =>
      if is_nil data then [] else
      let rest := skipn CHUNK_SIZE data in
      CEncrypt key (counter ++ [if is_nil rest then 1 else 0]) (firstn CHUNK_SIZE data) ++ encrypt_loop fuel' key (bump counter) rest
  end.
Definition StreamEncrypt (key data : bytes) : bytes := encrypt_loop (length data) key (repeat 0 11) data.
(** 78-104: the assertion at line 80; without it the subtraction at line 82 wraps around *)
Definition CDecrypt (key nonce encrypted : bytes) : outcome bytes :=
  if (length encrypted <=? TAG_SIZE)%nat then Fault
  else match Open C key nonce encrypted with Some d => Ret d | None => Throw end.
(** 106-133 *)
Fixpoint decrypt_loop (fuel : nat) (key counter encrypted : bytes) : outcome bytes :=
  match fuel with
  | O => Ret []
  | S fuel' =>
      if is_nil encrypted then Ret [] else
      let rest := skipn ENCRYPTED_CHUNK_SIZE encrypted in
      let* chunk := CDecrypt key (counter ++ [if is_nil rest then 1 else 0]) (firstn ENCRYPTED_CHUNK_SIZE encrypted) in
      let* others := decrypt_loop fuel' key (bump counter) rest in
      Ret (chunk ++ others)
  end.
Definition StreamDecrypt (key encrypted : bytes) : outcome bytes := decrypt_loop (length encrypted) key (repeat 0 11) encrypted.

(** ** RecipientLine.h *)
(** 12-15 *)
Record RecipientLine := mkLine { ephemeral_public_key : bytes; encrypted_file_key : bytes }.
(** 17-24 *)
Definition Line_Encode (l : RecipientLine) : bytes :=
  chars "-> X25519 " ++ EncodeUnpadded (ephemeral_public_key l) ++ [10] ++ EncodeUnpadded (encrypted_file_key l) ++ [10].
(** 26-41 *)
Definition CalcEncryptionKey (shared_secret ephemeral public : bytes) : bytes :=
  HKDF C (Some (ephemeral ++ public)) (chars "age-encryption.org/v1/X25519") shared_secret.

(** ** Header.h *)
(** 20-36 Create: the authentication code *)
Definition Header_Mac (mac_key : bytes) (recipients : list RecipientLine) : bytes :=
  HMAC_SHA256 C mac_key (chars "age-encryption.org/v1" ++ [10] ++ concat (map Line_Encode recipients) ++ chars "---").
(** 58-70 Encode *)
Definition Header_Encode (mac : bytes) (recipients : list RecipientLine) : bytes :=
  chars "age-encryption.org/v1" ++ [10] ++ concat (map Line_Encode recipients) ++ chars "--- " ++ EncodeUnpadded mac ++ [10].
(** 87: the class [^-\s] *)
Definition key_char (c : N) : bool := negb ((c =? 45) || (c =? 32) || ((9 <=? c) && (c <=? 13))).
(** 87: the regular expression: "-> X25519 " followed by characters of that class, and what its group matches *)
Definition recipient_match (line : bytes) : option bytes :=
  if StartsWith line (chars "-> X25519 ") then
    let k := skipn 10 line in if forallb key_char k then Some k else None
  else None.
(** 79-120 Decode, from the second line; the authentication code is decoded and never looked at again *)
Fixpoint decode_lines (lines : list bytes) : outcome (list RecipientLine) :=
  match lines with
  | [] => Throw
  | line :: rest =>
      match recipient_match line with
      | Some k =>
          let* pubkey_bytes := DecodeUnpadded k in
          if negb (length pubkey_bytes =? 32)%nat then Throw else
          match rest with
          | [] => Throw
          | f :: rest' =>
              let* file_key_bytes := DecodeUnpadded f in
              if negb (length file_key_bytes =? 32)%nat then Throw else
              omap (cons (mkLine pubkey_bytes file_key_bytes)) (decode_lines rest')
          end
      | None =>
          if StartsWith line (chars "---") then
            match Split line 32 with
            | [_; p] => let* _ := DecodeUnpadded p in Ret []
            | _ => Throw
            end
          else decode_lines rest
      end
  end.
Definition Header_Decode (lines : list bytes) : outcome (list RecipientLine) := decode_lines (tl lines).

(** ** Age.cpp *)
(** 39-64 BuildRecipientLines; [secrets] are the secret keys made for the recipients (line 46) *)
Fixpoint BuildRecipientLines (file_key : bytes) (secrets recipients : list bytes) : outcome (list RecipientLine) :=
  match recipients, secrets with
  | [], _ => Ret []
  | r :: recipients', s :: secrets' =>
      match ECDH C s r with
      | None => Throw
      | Some shared =>
          let enc_key := CalcEncryptionKey shared (ToPubKey C s) r in
          omap (cons (mkLine (ToPubKey C s) (firstn 32 (CEncrypt enc_key (repeat 0 12) file_key)))) (BuildRecipientLines file_key secrets' recipients')
      end
  | _, [] => Throw
  end.
(** 13-17 and 23-27 *)
Definition mac_key_of (file_key : bytes) : bytes := HKDF C None (chars "header") file_key.
Definition payload_key_of (nonce file_key : bytes) : bytes := HKDF C (Some nonce) (chars "payload") file_key.
(** 7-37 Encrypt; the random file key, nonce and secret keys are arguments *)
Definition Age_Encrypt (file_key nonce : bytes) (secrets recipients : list bytes) (payload : bytes) : outcome bytes :=
  let* lines := BuildRecipientLines file_key secrets recipients in
  Ret (Header_Encode (Header_Mac (mac_key_of file_key) lines) lines ++ nonce ++ StreamEncrypt (payload_key_of nonce file_key) payload).
(** 70-86: the lines up to the one that begins with "---", and what follows *)
Fixpoint read_lines (line data : bytes) : outcome (list bytes * bytes) :=
  match data with
  | [] => Throw
  | c :: data' =>
      if c =? 10 then
        if StartsWith line (chars "---") then Ret ([line], data')
        else omap (fun x => (line :: fst x, snd x)) (read_lines [] data')
      else read_lines (line ++ [c]) data'
  end.
(** 110-153 TryDecrypt; exceptions are caught and give nothing *)
Definition TryDecrypt (secret public : bytes) (l : RecipientLine) (nonce encrypted_payload : bytes) : outcome bytes :=
  match ECDH C secret (ephemeral_public_key l) with
  | None => Ret []
  | Some shared =>
      let enc_key := CalcEncryptionKey shared (ephemeral_public_key l) public in
      match CDecrypt enc_key (repeat 0 12) (encrypted_file_key l) with
      | Ret file_key => match StreamDecrypt (payload_key_of nonce file_key) encrypted_payload with Throw => Ret [] | o => o end
      | Throw => Ret []
      | Fault => Fault
      end
  end.
(** 93-107 *)
Fixpoint try_all (secret public : bytes) (ls : list RecipientLine) (nonce encrypted_payload : bytes) : outcome bytes :=
  match ls with
  | [] => Throw
  | l :: ls' =>
      let* decrypted := TryDecrypt secret public l nonce encrypted_payload in
      if is_nil decrypted then try_all secret public ls' nonce encrypted_payload else Ret decrypted
  end.
(** 66-108 Decrypt *)
Definition Age_Decrypt (secret public payload : bytes) : outcome bytes :=
  let* x := read_lines [] payload in
  let (lines, data) := x in
  if (length data <? 16)%nat then Throw else
  let* recipients := Header_Decode lines in
  try_all secret public recipients (firstn 16 data) (skipn 16 data).
End Age.
