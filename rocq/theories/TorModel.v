(** Model of onion addresses: TorAddressParser (src/Net/Tor/TorAddressParser.cpp), TorAddress (include/Net/Tor/TorAddress.h), and the base32
    of cppcodec (deps/cppcodec/cppcodec/base32_rfc4648.hpp, detail/base32.hpp, detail/stream_codec.hpp). Characters and bytes are numbers. *)
From Verif Require Import Base.
Local Open Scope N_scope.

(** base32_rfc4648::symbol, base32_rfc4648.hpp:35-55: A-Z from index 0, 2-7 from index 26 *)
Definition symbol (i : N) : N := if i <? 26 then 65 + i else 24 + i.
(** normalized_symbol, 56-60 *)
Definition normalized_symbol (c : N) : N := if (97 <=? c) && (c <=? 122) then c - 97 + 65 else c.
(** alphabet_index_info::index_of, stream_codec.hpp: the index of a symbol, or none if it is a character at which decoding stops *)
Definition index_of (c : N) : option N :=
  if (65 <=? c) && (c <=? 90) then Some (c - 65) else if (50 <=? c) && (c <=? 55) then Some (c - 24) else None.

(** base32::index, base32.hpp:55-68: the symbols of a block of five bytes *)
Definition encode_block (b0 b1 b2 b3 b4 : N) : list N :=
  [ N.land (N.shiftr b0 3) 0x1F;
    N.lor (N.land (N.shiftl b0 2) 0x1C) (N.land (N.shiftr b1 6) 0x3);
    N.land (N.shiftr b1 1) 0x1F;
    N.lor (N.land (N.shiftl b1 4) 0x10) (N.land (N.shiftr b2 4) 0xF);
    N.lor (N.land (N.shiftl b2 1) 0x1E) (N.land (N.shiftr b3 7) 0x1);
    N.land (N.shiftr b3 2) 0x1F;
    N.lor (N.land (N.shiftl b3 3) 0x18) (N.land (N.shiftr b4 5) 0x7);
    N.land b4 0x1F ].
(** stream_codec::encode: all blocks. Only lengths that are a multiple of five are modelled, so there is no tail and no padding. *)
Fixpoint encode (bytes : list N) : list N :=
  match bytes with
  | b0 :: b1 :: b2 :: b3 :: b4 :: r => map symbol (encode_block b0 b1 b2 b3 b4) ++ encode r
  | _ => []
  end.
(** base32::decode_block, base32.hpp:104-113 *)
Definition decode_block (i0 i1 i2 i3 i4 i5 i6 i7 : N) : list N :=
  [ N.lor (N.land (N.shiftl i0 3) 0xF8) (N.land (N.shiftr i1 2) 0x7);
    N.lor (N.lor (N.land (N.shiftl i1 6) 0xC0) (N.land (N.shiftl i2 1) 0x3E)) (N.land (N.shiftr i3 4) 0x1);
    N.lor (N.land (N.shiftl i3 4) 0xF0) (N.land (N.shiftr i4 1) 0xF);
    N.lor (N.lor (N.land (N.shiftl i4 7) 0x80) (N.land (N.shiftl i5 2) 0x7C)) (N.land (N.shiftr i6 3) 0x3);
    N.lor (N.land (N.shiftl i6 5) 0xE0) (N.land i7 0x1F) ].
(** The indexes of all characters; none if there is a character at which decoding stops. *)
Fixpoint indexes (s : list N) : option (list N) :=
  match s with
  | [] => Some []
  | c :: s' => match index_of (normalized_symbol c), indexes s' with Some i, Some r => Some (i :: r) | _, _ => None end
  end.
Fixpoint decode_blocks (l : list N) : list N :=
  match l with
  | i0 :: i1 :: i2 :: i3 :: i4 :: i5 :: i6 :: i7 :: r => decode_block i0 i1 i2 i3 i4 i5 i6 i7 ++ decode_blocks r
  | _ => []
  end.
(** stream_codec::decode of a text of 56 characters. At a character at which decoding stops the code throws, or returns what it has, which is
    then less than 35 bytes (padding ends a block of at most four bytes); both make the parser return nullopt, so both are None here. *)
Definition decode (s : list N) : option (list N) := option_map decode_blocks (indexes s).

(** StringUtil::ToLower on the alphabet *)
Definition lower (c : N) : N := if (65 <=? c) && (c <=? 90) then c + 32 else c.
Definition ToLower (s : list N) : list N := map lower s.

(** TorAddress, TorAddress.h: compared by its text *)
Record TorAddress := mkTor { ta_text : list N; ta_key : list N; ta_version : N }.
Fixpoint text_eqb (a b : list N) : bool :=
  match a, b with
  | [], [] => true
  | x :: a, y :: b => (x =? y) && text_eqb a b
  | _, _ => false
  end.
Definition tor_eqb (a b : TorAddress) : bool := text_eqb (ta_text a) (ta_text b).

Section PARSER.
(** SHA3-256, and ED25519::IsValid (src/Crypto/ED25519.cpp:23-26), a point of the right order, by libsodium. *)
Variable sha3 : list N -> list N.
Variable key_valid : list N -> bool.
(** ".onion checksum" *)
Definition checksum_prefix : list N := [46; 111; 110; 105; 111; 110; 32; 99; 104; 101; 99; 107; 115; 117; 109].
(** BuildChecksum, TorAddressParser.cpp:157-176: the first two bytes of the digest *)
Definition BuildChecksum (key : list N) (version : N) : list N := firstn 2 (sha3 (checksum_prefix ++ key ++ [version])).
(** IsValid, 130-150 *)
Definition IsValid (version : N) (key checksum : list N) : bool := text_eqb checksum (BuildChecksum key version) && key_valid key.
(** Parse, 62-111 *)
Definition Parse (address : list N) : option TorAddress :=
  if Nat.eqb (length address) 56 then
    match decode address with
    | Some b32 =>
        if Nat.eqb (length b32) 35 then
          let pubkey := firstn 32 b32 in
          let checksum := firstn 2 (skipn 32 b32) in
          let version := nth 34 b32 0 in
          if IsValid version pubkey checksum then Some (mkTor address pubkey version) else None
        else None
    | None => None
    end
  else None.
(** FromPubKey, 113-126 *)
Definition FromPubKey (pubkey : list N) : TorAddress :=
  let version := 3 in
  mkTor (ToLower (encode (pubkey ++ BuildChecksum pubkey version ++ [version]))) pubkey version.
End PARSER.
