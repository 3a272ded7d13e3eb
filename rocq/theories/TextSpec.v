(** What the text encodings mean, independently of how they are computed. *)
From Coq Require Import Ascii String.
From Verif Require Import Base Bytes.
Local Open Scope N_scope.
Local Open Scope list_scope.

(** characters of a literal *)
Definition text (s : string) : bytes := map N_of_ascii (list_ascii_of_string s).

(** space, tab, newline, vertical tab, form feed, carriage return *)
Definition blank (c : N) : Prop := c = 32 \/ 9 <= c <= 13.
Definition blanks (s : bytes) : Prop := Forall blank s.

(** the number written by big-endian digits in a base *)
Definition radix (base : N) (ds : list N) : N := fold_left (fun acc d => acc * base + d) ds 0.

(** does not begin with a zero *)
Definition no_leading_zero (l : list N) : Prop := match l with [] => True | d :: _ => d <> 0 end.

(** the digit a character stands for: its position in the alphabet *)
Definition digit_in (alphabet : bytes) (c d : N) : Prop := nth_error alphabet (N.to_nat d) = Some c.

Definition base58_alphabet : bytes := text "123456789ABCDEFGHJKLMNPQRSTUVWXYZabcdefghijkmnopqrstuvwxyz".

(** [s] is the Base58 text of the bytes [data]: surrounded by blanks, one '1' for each leading zero
    byte, then the digits of the remaining bytes read as a number, both without leading zeroes. *)
Definition base58_text (s data : bytes) : Prop :=
  exists lead z body trail ds rest,
    s = lead ++ repeat 49 z ++ body ++ trail /\ blanks lead /\ blanks trail /\
    Forall2 (digit_in base58_alphabet) body ds /\ no_leading_zero ds /\
    data = repeat 0 z ++ rest /\ is_bytes rest /\ no_leading_zero rest /\
    radix 58 ds = radix 256 rest.

(** the variant without a version byte: only the number counts, leading zeroes are not recorded *)
Definition base58_number (s data : bytes) : Prop :=
  exists lead body trail ds,
    s = lead ++ body ++ trail /\ blanks lead /\ blanks trail /\
    Forall2 (digit_in base58_alphabet) body ds /\
    is_bytes data /\ no_leading_zero data /\ radix 58 ds = radix 256 data.

(** the value of a hexadecimal digit of either case *)
Definition hex_digit (c d : N) : Prop :=
  digit_in (text "0123456789abcdef") c d \/ digit_in (text "0123456789ABCDEF") c d.

(** two digits per byte *)
Inductive hex_pairs : bytes -> bytes -> Prop :=
| hex_none : hex_pairs [] []
| hex_more a b x s data :
    x < 256 -> hex_digit a (x / 16) -> hex_digit b (x mod 16) -> hex_pairs s data ->
    hex_pairs (a :: b :: s) (x :: data).

(** [s] is a hexadecimal text of [data]: optional blanks, an optional 0x, then two digits per byte *)
Definition hex_text (s data : bytes) : Prop :=
  exists lead prefix body trail,
    s = lead ++ prefix ++ body ++ trail /\ blanks lead /\ blanks trail /\
    (prefix = [] \/ prefix = text "0x" \/ prefix = text "0X") /\ hex_pairs body data.

(** armor: [s] without its blanks is BEGINSLATEPACK . payload . ENDSLATEPACK with payload free of dots;
    further dots may come before, between or after, and anything may follow a dot at the end. *)
Definition unblank (s : bytes) : bytes := filter (fun c => negb ((c =? 32) || (9 <=? c) && (c <=? 13))) s.
