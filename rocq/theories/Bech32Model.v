(** Model of slatepack addresses: deps/bitcoin/src/bech32.cpp, include/Wallet/Models/Slatepack/Bech32Address.h and
    include/Wallet/Models/Slatepack/SlatepackAddress.h. Text is a list of character codes. *)
From Coq Require Import String.
From Verif Require Import Base Bytes FileModel SerialModel TextModel.
Local Open Scope N_scope.

(** bech32.cpp:13: CHARSET. *)
Definition CHARSET : bytes := chars "qpzry9x8gf2tvdw0s3jn54khce6mua7l".
(** bech32.cpp:16-25: CHARSET_REV; [None] is -1. The table has 128 entries; reading past them is undefined, and the caller
    only reads characters between 33 and 126. *)
Definition CHARSET_REV : list (option N) :=
  repeat None 48 ++
  [Some 15; None; Some 10; Some 17; Some 21; Some 20; Some 26; Some 30; Some 7; Some 5; None; None; None; None; None; None;
   None; Some 29; None; Some 24; Some 13; Some 25; Some 9; Some 8; Some 23; None; Some 18; Some 22; Some 31; Some 27; Some 19; None;
   Some 1; Some 0; Some 3; Some 16; Some 11; Some 28; Some 12; Some 14; Some 6; Some 4; Some 2; None; None; None; None; None;
   None; Some 29; None; Some 24; Some 13; Some 25; Some 9; Some 8; Some 23; None; Some 18; Some 22; Some 31; Some 27; Some 19; None;
   Some 1; Some 0; Some 3; Some 16; Some 11; Some 28; Some 12; Some 14; Some 6; Some 4; Some 2; None; None; None; None; None].

(** bech32.cpp:87-91: one of the conditional exclusive ors. *)
Definition xor_if (b : bool) (g c : N) : N := if b then N.lxor c g else c.
(** bech32.cpp:69-92: one turn of the loop of PolyMod. [c0] is the cast to 8 bits; the other values fit in 32 bits. *)
Definition polymod_step (c v_i : N) : N :=
  let c0 := N.shiftr c 25 mod 256 in
  let c := N.lxor (N.shiftl (N.land c 0x1ffffff) 5) v_i in
  let c := xor_if (N.testbit c0 0) 0x3b6a57b2 c in
  let c := xor_if (N.testbit c0 1) 0x26508e6d c in
  let c := xor_if (N.testbit c0 2) 0x1ea119fa c in
  let c := xor_if (N.testbit c0 3) 0x3d4233dd c in
  xor_if (N.testbit c0 4) 0x2a1462b3 c.
(** bech32.cpp:37-94: PolyMod. *)
Definition PolyMod (v : list N) : N := fold_left polymod_step v 1.

(** bech32.cpp:97-100: LowerCase. *)
Definition LowerCase (c : N) : N := if (65 <=? c) && (c <=? 90) then c - 65 + 97 else c.
(** bech32.cpp:103-115: ExpandHRP. *)
Definition ExpandHRP (hrp : bytes) : list N :=
  map (fun c => N.shiftr c 5) hrp ++ [0] ++ map (fun c => N.land c 31) hrp.
(** bech32.cpp:118-125: VerifyChecksum. *)
Definition VerifyChecksum (hrp : bytes) (values : list N) : bool := PolyMod (ExpandHRP hrp ++ values) =? 1.
(** bech32.cpp:128-139: CreateChecksum. *)
Definition CreateChecksum (hrp : bytes) (values : list N) : list N :=
  let mod_ := N.lxor (PolyMod (ExpandHRP hrp ++ values ++ repeat 0 6)) 1 in
  map (fun i => N.land (N.shiftr mod_ (5 * (5 - i))) 31) [0; 1; 2; 3; 4; 5].

(** bech32.cpp:147-156: Encode. CHARSET[c] beyond the 32 characters and the terminator is undefined. *)
Fixpoint encode_chars (values : list N) : outcome bytes :=
  match values with
  | [] => Ret []
  | c :: rest =>
    let* ch := (match nth_error (CHARSET ++ [0]) (N.to_nat c) with Some x => Ret x | None => Fault end) in
    let* cs := encode_chars rest in Ret (ch :: cs)
  end.
Definition Encode (hrp : bytes) (values : list N) : outcome bytes :=
  let* cs := encode_chars (values ++ CreateChecksum hrp values) in Ret (hrp ++ [49] ++ cs).

(** bech32.cpp:160-166: the first loop of Decode; [None] if a character is not allowed, else whether there are
    lower and upper case letters. *)
Fixpoint scan_case (str : bytes) (lower upper : bool) : option (bool * bool) :=
  match str with
  | [] => Some (lower, upper)
  | c :: rest =>
    if (97 <=? c) && (c <=? 122) then scan_case rest true upper
    else if (65 <=? c) && (c <=? 90) then scan_case rest lower true
    else if (c <? 33) || (126 <? c) then None
    else scan_case rest lower upper
  end.
(** std::string::rfind of a character: the position of the last one. *)
Fixpoint rfind (ch : N) (str : bytes) : option N :=
  match str with
  | [] => None
  | c :: rest => match rfind ch rest with
                 | Some p => Some (p + 1)
                 | None => if c =? ch then Some 0 else None
                 end
  end.
(** bech32.cpp:172-181: the loop over the data part. *)
Fixpoint decode_chars (str : bytes) : outcome (option (list N)) :=
  match str with
  | [] => Ret (Some [])
  | c :: rest =>
    match nth_error CHARSET_REV (N.to_nat c) with
    | None => Fault
    | Some None => Ret None
    | Some (Some rev) => let* r := decode_chars rest in Ret (option_map (cons rev) r)
    end
  end.
(** bech32.cpp:159-190: Decode. The empty pair is returned for every refused text. *)
Definition Decode (str : bytes) : outcome (bytes * list N) :=
  match scan_case str false false with
  | None => Ret ([], [])
  | Some (lower, upper) =>
    if lower && upper then Ret ([], []) else
    match rfind 49 str with
    | None => Ret ([], [])
    | Some pos =>
      if (90 <? nlen str) || (pos =? 0) || (nlen str <? pos + 7) then Ret ([], []) else
      let* r := decode_chars (skipn (N.to_nat (pos + 1)) str) in
      match r with
      | None => Ret ([], [])
      | Some values =>
        let hrp := map LowerCase (firstn (N.to_nat pos) str) in
        if negb (VerifyChecksum hrp values) then Ret ([], [])
        else Ret (hrp, firstn (length values - 6) values)
      end
    end
  end.

(** Bech32Address.h:34-47: the loop of FromBase32. At most 7 bits are held at the start of a turn, so that the inner loop
    takes one turn at most and is modelled by a conditional. *)
Fixpoint from32_loop (data : list N) (acc bits : N) (ret : bytes) : outcome (N * N * bytes) :=
  match data with
  | [] => Ret (acc, bits, ret)
  | value :: rest =>
    if 31 <? value then Throw else
    let acc := N.lor (N.shiftl acc 5 mod W32) value in
    let bits := bits + 5 in
    if 8 <=? bits then from32_loop rest acc (bits - 8) (ret ++ [N.land (N.shiftr acc (bits - 8)) 255])
    else from32_loop rest acc bits ret
  end.
(** Bech32Address.h:26-54: FromBase32. *)
Definition FromBase32 (data : list N) : outcome bytes :=
  let* r := from32_loop data 0 0 [] in
  let '(acc, bits, ret) := r in
  if (5 <=? bits) || negb (N.land (N.shiftl acc (8 - bits) mod W32) 255 =? 0) then Throw else Ret ret.

(** Bech32Address.h:67-86: the loop of ToBase32: the bits left over, their number and the digits written. *)
Fixpoint to32_loop (data : bytes) (buffer_bits buffer : N) (ret : list N) : N * N * list N :=
  match data with
  | [] => (buffer_bits, buffer, ret)
  | b :: rest =>
    let '(buffer_bits, buffer, ret) :=
      if 5 <=? buffer_bits
      then (buffer_bits - 5, N.shiftl buffer 5 mod 256, ret ++ [N.shiftr (N.land buffer 248) 3])
      else (buffer_bits, buffer, ret) in
    let from_buffer := N.shiftr buffer 3 in
    let from_byte := N.shiftr b (3 + buffer_bits) in
    to32_loop rest (3 + buffer_bits) (N.shiftl b (5 - buffer_bits) mod 256) (ret ++ [N.lor from_buffer from_byte])
  end.
(** Bech32Address.h:56-99: ToBase32. *)
Definition ToBase32 (data : bytes) : list N :=
  let '(buffer_bits, buffer, ret) := to32_loop data 0 0 [] in
  let '(buffer_bits, buffer, ret) :=
    if 5 <=? buffer_bits
    then (buffer_bits - 5, N.shiftl buffer 5 mod 256, ret ++ [N.shiftr (N.land buffer 248) 3])
    else (buffer_bits, buffer, ret) in
  if negb (buffer_bits =? 0) then ret ++ [N.shiftr buffer 3] else ret.

(** Bech32Address.h:11-19: Parse, with the members it fills; 21: ToString. *)
Definition Bech32Address_Parse (address : bytes) : outcome (bytes * bytes) :=
  let* decoded := Decode address in
  match fst decoded, snd decoded with
  | [], _ | _, [] => Throw
  | hrc, data => let* d := FromBase32 data in Ret (hrc, d)
  end.
Definition Bech32Address_ToString (hrc data : bytes) : outcome bytes := Encode hrc (ToBase32 data).

Section Address.
(** src/Crypto/ED25519.cpp:24: IsValid, the check that 32 bytes are a point without a torsion component. *)
Variable IsValid : bytes -> bool.
(** src/Crypto/ED25519.cpp:8-21: ToPubKey. *)
Definition ToPubKey (b : bytes) : outcome bytes :=
  if negb (nlen b =? 32) then Throw else if negb (IsValid b) then Throw else Ret b.

(** SlatepackAddress.h:72: HRC. An address is the 32 bytes of its public key. *)
Definition HRC : bytes := chars "grin".
(** SlatepackAddress.h:18-24: Parse. *)
Definition SlatepackAddress_Parse (address : bytes) : outcome bytes :=
  let* a := Bech32Address_Parse address in ToPubKey (snd a).
(** SlatepackAddress.h:40: ToString; 34: IsNull; 32: operator==. *)
Definition SlatepackAddress_ToString (pubkey : bytes) : outcome bytes := Bech32Address_ToString HRC pubkey.
Definition SlatepackAddress_IsNull (pubkey : bytes) : bool := bytes_eqb pubkey (repeat 0 32).
(** SlatepackAddress.h:42-47: Serialize. *)
Definition SlatepackAddress_Serialize (pubkey : bytes) : outcome bytes :=
  let* str := SlatepackAddress_ToString pubkey in Ret (Append 1 (nlen str mod 256) ++ str).
(** SlatepackAddress.h:49-53: Deserialize. *)
Definition SlatepackAddress_Deserialize : reader bytes :=
  let! size := ReadU8 in let! s := ReadString size in
  fun b => match SlatepackAddress_Parse s with Ret a => Ret (a, b) | Throw => Throw | Fault => Fault end.
End Address.
