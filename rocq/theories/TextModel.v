(** Model of the text encodings: hexadecimal, Base58 with checksum, slatepack armor framing, and
    the string helpers they use. A string is a list of character codes below 256. *)
From Coq Require Import Ascii String.
From Verif Require Import Base Bytes FileModel.
Local Open Scope N_scope.
Local Open Scope list_scope.

(** a C++ string literal as its character codes *)
Definition chars (s : string) : bytes := map N_of_ascii (list_ascii_of_string s).

(** std::isspace in the "C" locale, src/Core/Serialization/Base58.cpp:43-45 (IsSpace) and
    include/Wallet/Models/Slatepack/Armor.h:8-10 (IsWhitespace): the same six characters.
    Simplification: std::isspace on a negative char (codes 128..255) is taken to be false. *)
Definition IsSpace (c : N) : bool :=
  (c =? 32) || (c =? 12) || (c =? 10) || (c =? 13) || (c =? 9) || (c =? 11).

(** the loops that skip spaces (Base58.cpp:50-52, 92-94) and ltrim's find_if (include/Common/Util/StringUtil.h:127-131) *)
Fixpoint skip_spaces (s : bytes) : bytes :=
  match s with
  | c :: s' => if IsSpace c then skip_spaces s' else s
  | [] => []
  end.

(** include/Common/Util/StringUtil.h:117-139 Trim = ltrim then rtrim (the '\r' and '\n' tests of
    rtrim are already covered by isspace) *)
Definition Trim (s : bytes) : bytes := rev (skip_spaces (rev (skip_spaces s))).

(** include/Common/Util/StringUtil.h:73-84 ToLower. Simplification: std::tolower in the "C" locale. *)
Definition tolower (c : N) : N := if (65 <=? c) && (c <=? 90) then c + 32 else c.
Definition ToLower (s : bytes) : bytes := map tolower s.

(** include/Common/Util/StringUtil.h:29-37 StartsWith: the size test, then std::equal *)
Definition StartsWith (value beginning : bytes) : bool :=
  if nlen value <? nlen beginning then false
  else bytes_eqb (firstn (length beginning) value) beginning.

(** include/Common/Util/StringUtil.h:49-71 Split, for a one-character delimiter (the only kind
    used): maximal runs of other characters, empty tokens skipped.
    [tok] is the token being read, newest character first. *)
Fixpoint split_from (d : N) (s tok : bytes) : list bytes :=
  match s with
  | [] => match tok with [] => [] | _ => [rev tok] end
  | c :: s' =>
      if c =? d then match tok with [] => split_from d s' [] | _ => rev tok :: split_from d s' [] end
      else split_from d s' (c :: tok)
  end.
Definition Split (s : bytes) (d : N) : list bytes := split_from d s [].

(* ---------------------------------------------------------------- hexadecimal *)

(** "0123456789abcdefABCDEF" membership, src/Common/Util/HexUtil.cpp:11,13 *)
Definition is_hex_char (c : N) : bool := existsb (N.eqb c) (chars "0123456789abcdefABCDEF").

(** src/Common/Util/HexUtil.cpp:8-15 IsValidHex *)
Definition IsValidHex (data : bytes) : bool :=
  if (2 <? nlen data) && bytes_eqb (firstn 2 data) (chars "0x")
  then forallb is_hex_char (skipn 2 data)
  else forallb is_hex_char data.

(** cppcodec::hex_lower (external library): encode writes two lower-case symbols per byte; decode
    accepts both cases, throws symbol_error on any other character and invalid_input_length on an
    odd number of symbols. *)
Definition hex_symbol (d : N) : N := nth (N.to_nat d) (chars "0123456789abcdef") 0.
Definition hex_lower_encode (data : bytes) : bytes :=
  flat_map (fun b => [hex_symbol (b / 16); hex_symbol (b mod 16)]) data.
Definition hex_index (c : N) : option N :=
  if (48 <=? c) && (c <=? 57) then Some (c - 48)
  else if (65 <=? c) && (c <=? 70) then Some (c - 55)
  else if (97 <=? c) && (c <=? 102) then Some (c - 87)
  else None.
Fixpoint hex_lower_decode (s : bytes) : outcome bytes :=
  match s with
  | [] => Ret []
  | [_] => Throw
  | a :: b :: s' =>
      match hex_index a, hex_index b with
      | Some x, Some y => let* r := hex_lower_decode s' in Ret (16 * x + y :: r)
      | _, _ => Throw
      end
  end.

(** src/Common/Util/HexUtil.cpp:17-32 FromHex *)
Definition FromHex (hex : bytes) : outcome bytes :=
  let hex_clean := Trim (ToLower hex) in
  let hex_clean := if StartsWith hex_clean (chars "0x") then skipn 2 hex_clean else hex_clean in
  if negb (IsValidHex hex_clean) then Throw else hex_lower_decode hex_clean.

(** src/Common/Util/HexUtil.cpp:34-37 ConvertToHex *)
Definition ConvertToHex (data : bytes) : bytes := hex_lower_encode data.

(* ---------------------------------------------------------------- Base58 *)

(** src/Core/Serialization/Base58.cpp:12 *)
Definition pszBase58 : bytes := chars "123456789ABCDEFGHJKLMNPQRSTUVWXYZabcdefghijkmnopqrstuvwxyz".

(** src/Core/Serialization/Base58.cpp:13-30, the table as written *)
Definition mapBase58 : list Z := [
    -1;-1;-1;-1;-1;-1;-1;-1; -1;-1;-1;-1;-1;-1;-1;-1;
    -1;-1;-1;-1;-1;-1;-1;-1; -1;-1;-1;-1;-1;-1;-1;-1;
    -1;-1;-1;-1;-1;-1;-1;-1; -1;-1;-1;-1;-1;-1;-1;-1;
    -1; 0; 1; 2; 3; 4; 5; 6;  7; 8;-1;-1;-1;-1;-1;-1;
    -1; 9;10;11;12;13;14;15; 16;-1;17;18;19;20;21;-1;
    22;23;24;25;26;27;28;29; 30;31;32;-1;-1;-1;-1;-1;
    -1;33;34;35;36;37;38;39; 40;41;42;43;-1;44;45;46;
    47;48;49;50;51;52;53;54; 55;56;57;-1;-1;-1;-1;-1;
    -1;-1;-1;-1;-1;-1;-1;-1; -1;-1;-1;-1;-1;-1;-1;-1;
    -1;-1;-1;-1;-1;-1;-1;-1; -1;-1;-1;-1;-1;-1;-1;-1;
    -1;-1;-1;-1;-1;-1;-1;-1; -1;-1;-1;-1;-1;-1;-1;-1;
    -1;-1;-1;-1;-1;-1;-1;-1; -1;-1;-1;-1;-1;-1;-1;-1;
    -1;-1;-1;-1;-1;-1;-1;-1; -1;-1;-1;-1;-1;-1;-1;-1;
    -1;-1;-1;-1;-1;-1;-1;-1; -1;-1;-1;-1;-1;-1;-1;-1;
    -1;-1;-1;-1;-1;-1;-1;-1; -1;-1;-1;-1;-1;-1;-1;-1;
    -1;-1;-1;-1;-1;-1;-1;-1; -1;-1;-1;-1;-1;-1;-1;-1]%Z.
Definition base58_digit (c : N) : option N :=
  let d := nth (N.to_nat c) mapBase58 (-1)%Z in if (d =? -1)%Z then None else Some (Z.to_N d).

(** a char* made from a std::string ends at the first NUL: c_str() / data() at Base58.cpp:169,201,217 *)
Fixpoint c_str (s : bytes) : bytes :=
  match s with
  | [] => []
  | c :: s' => if c =? 0 then [] else c :: c_str s'
  end.

(** the inner loop, Base58.cpp:79-84 (m = 58, base = 256) and 137-143 (m = 256, base = 58), over the
    buffer in rbegin order. Simplification: the ints `i` and `length` are unbounded (buffers
    shorter than 2^31); `carry` never exceeds 58 * 256. Returns the buffer, [i] and [carry]. *)
Fixpoint mul_add (m base : N) (length i : nat) (carry : N) (buf : list N) : list N * nat * N :=
  match buf with
  | [] => ([], i, carry)
  | d :: buf' =>
      if negb (carry =? 0) || (i <? length)%nat then
        let c := carry + m * d in
        let '(r, i', c') := mul_add m base length (S i) (c / base) buf' in
        (c mod base :: r, i', c')
      else (buf, i, carry)
  end.

(** `while (it != end && *it == 0) it++`, Base58.cpp:101-104 and 150-152 *)
Fixpoint skip_zeroes (l : list N) : list N :=
  match l with
  | d :: l' => if d =? 0 then skip_zeroes l' else l
  | [] => []
  end.

(** the leading-zero loop, Base58.cpp:125-128 (c = 0), and the leading-'1' loop, 59-62 (c = '1') *)
Fixpoint count_leading (c : N) (s : bytes) : nat * bytes :=
  match s with
  | x :: s' => if x =? c then let '(n, r) := count_leading c s' in (S n, r) else (O, s)
  | [] => (O, [])
  end.

(** Base58.cpp:135-148, the outer loop of Encode; a failed assert is [Fault] *)
Fixpoint encode_loop (data : bytes) (b58 : list N) (length : nat) : outcome (list N * nat) :=
  match data with
  | [] => Ret (b58, length)
  | ch :: data' =>
      let '(b58', i, carry) := mul_add 256 58 length 0 ch b58 in
      if carry =? 0 then encode_loop data' b58' i else Fault
  end.

(** Base58.cpp:118-160 Encode(pbegin, pend, include_version) *)
Definition Encode_ (data : bytes) (include_version : bool) : outcome bytes :=
  let '(zeroes, rest) := if include_version then count_leading 0 data else (O, data) in
  let size := nlen rest * 138 / 100 + 1 in
  let* p := encode_loop rest (repeat 0 (N.to_nat size)) 0 in
  let '(b58, length) := p in
  Ret (repeat 49 zeroes ++ map (fun d => nth (N.to_nat d) pszBase58 0) (skip_zeroes (rev (firstn length b58)))).

(** Base58.cpp:71-89, the outer loop of Decode: stops at the end or at a space, returns the rest *)
Fixpoint decode_loop (psz : bytes) (b256 : list N) (length : nat) : outcome (list N * nat * bytes) :=
  match psz with
  | [] => Ret (b256, length, [])
  | c :: psz' =>
      if IsSpace c then Ret (b256, length, psz) else
      match base58_digit c with
      | None => Throw
      | Some d =>
          let '(b256', i, carry) := mul_add 58 256 length 0 d b256 in
          if carry =? 0 then decode_loop psz' b256' i else Fault
      end
  end.

(** Base58.cpp:47-116 Decode(psz, include_version) *)
Definition Decode_ (str : bytes) (include_version : bool) : outcome bytes :=
  let psz := skip_spaces (c_str str) in
  let '(zeroes, psz) := if include_version then count_leading 49 psz else (O, psz) in
  let size := nlen psz * 733 / 1000 + 1 in
  let* p := decode_loop psz (repeat 0 (N.to_nat size)) 0 in
  let '(b256, length, psz) := p in
  match skip_spaces psz with
  | _ :: _ => Throw
  | [] => Ret (repeat 0 zeroes ++ skip_zeroes (rev (firstn length b256)))
  end.

(** Base58.cpp:162-170 *)
Definition Base58_Encode (data : bytes) : outcome bytes := Encode_ data true.
Definition Base58_Decode (str : bytes) : outcome bytes := Decode_ str true.

Section WithHash.
(** Hasher::SHA256 (external library; include/Crypto/Hasher.h) *)
Variable SHA256 : bytes -> bytes.

(** Base58.cpp:232-238 *)
Definition SHA256d (b : bytes) : bytes := SHA256 (SHA256 b).

(** Base58.cpp:172-179 EncodeCheck *)
Definition EncodeCheck (data : bytes) : outcome bytes :=
  Base58_Encode (data ++ firstn 4 (SHA256d data)).

(** Base58.cpp:181-202 DecodeCheck *)
Definition DecodeCheck (str : bytes) : outcome bytes :=
  let* decoded := Decode_ str true in
  if nlen decoded <? 4 then Throw else
  let n := (length decoded - 4)%nat in
  if bytes_eqb (firstn 4 (SHA256d (firstn n decoded))) (skipn n decoded) then Ret (firstn n decoded) else Throw.

(** Base58.cpp:204-213 SimpleEncodeCheck *)
Definition SimpleEncodeCheck (data : bytes) : outcome bytes :=
  Encode_ (firstn 4 (SHA256d data) ++ data) false.

(** Base58.cpp:215-230 SimpleDecodeCheck *)
Definition SimpleDecodeCheck (str : bytes) : outcome bytes :=
  let* decoded := Decode_ str false in
  if nlen decoded <? 4 then Throw else
  if bytes_eqb (firstn 4 (SHA256d (skipn 4 decoded))) (firstn 4 decoded) then Ret (skipn 4 decoded) else Throw.

(* ---------------------------------------------------------------- slatepack armor *)

(** include/Wallet/Models/Slatepack/Armor.h:86-90 *)
Definition HEADER : bytes := chars "BEGINSLATEPACK".
Definition FOOTER : bytes := chars "ENDSLATEPACK".
Definition WORD_LENGTH : N := 15.
Definition WORDS_PER_LINE : N := 200.

(** Armor.h:67-84 FormatSpacing, from position [i] *)
Fixpoint format_spacing_from (i : N) (data : bytes) : bytes :=
  match data with
  | [] => []
  | c :: data' =>
      (if negb (i =? 0) && (i mod WORD_LENGTH =? 0)
       then (if i mod (WORD_LENGTH * WORDS_PER_LINE) =? 0 then [10] else [32])
       else [])
      ++ c :: format_spacing_from (i + 1) data'
  end.
Definition FormatSpacing (data : bytes) : bytes := format_spacing_from 0 data.

(** Armor.h:31-38, the text part of Pack. Simplification: [serialized] is the result of
    SlatepackMessage::Encrypt (modelled separately, or an arbitrary byte string). *)
Definition PackBytes (serialized : bytes) : outcome bytes :=
  let* base58_encoded := SimpleEncodeCheck serialized in
  Ret (HEADER ++ chars ". " ++ FormatSpacing base58_encoded ++ chars ". " ++ FOOTER ++ chars ".").

(** Armor.h:41-62, the text part of Unpack: the bytes handed to SlatepackMessage::Decrypt *)
Definition UnpackBytes (armored : bytes) : outcome bytes :=
  let cleaned := filter (fun c => negb (IsSpace c)) armored in
  match Split cleaned 46 with
  | p0 :: p1 :: p2 :: _ =>
      if negb (bytes_eqb p0 HEADER) || negb (bytes_eqb p2 FOOTER) then Throw
      else SimpleDecodeCheck p1
  | _ => Throw
  end.
End WithHash.
