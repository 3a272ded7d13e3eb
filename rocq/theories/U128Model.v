(** Model of the 128-bit unsigned integer class used by the proof-of-work difficulty code
    and of [PoWValidator::GetMaximumDifficulty]. *)
From Verif Require Import Base Bytes.
Local Open Scope N_scope.

(** src/PoW/uint128.h:54-57: two 64-bit halves. *)
Record u128 := mk128 { UPPER : N; LOWER : N }.

(** src/PoW/uint128.h:63-66 for an unsigned argument of at most 64 bits. *)
Definition of64 (x : N) : u128 := mk128 0 x.
(** src/PoW/uint128.cpp:3-4. *)
Definition uint128_0 := of64 0.
Definition uint128_1 := of64 1.

(** bool as an integer operand. *)
Definition b2n (b : bool) : N := if b then 1 else 0.

(** 64-bit shifts by an amount below 64 (a larger amount is undefined behaviour in C++;
    the callers below never use one). *)
Definition shl64 (x s : N) : N := N.shiftl x s mod W64.
Definition shr64 (x s : N) : N := N.shiftr x s.

(** src/PoW/uint128.cpp:39-41. *)
Definition to_bool (a : u128) : bool := negb (N.lor (UPPER a) (LOWER a) =? 0).
(** src/PoW/uint128.cpp:55-57. *)
Definition to64 (a : u128) : N := LOWER a.

(** src/PoW/uint128.cpp:59-91. *)
Definition op_and (a b : u128) : u128 := mk128 (N.land (UPPER a) (UPPER b)) (N.land (LOWER a) (LOWER b)).
Definition op_or (a b : u128) : u128 := mk128 (N.lor (UPPER a) (UPPER b)) (N.lor (LOWER a) (LOWER b)).
Definition op_xor (a b : u128) : u128 := mk128 (N.lxor (UPPER a) (UPPER b)) (N.lxor (LOWER a) (LOWER b)).
Definition op_not (a : u128) : u128 := mk128 (W64 - 1 - UPPER a) (W64 - 1 - LOWER a).

(** src/PoW/uint128.cpp:93-113. *)
Definition op_shl (a rhs : u128) : u128 :=
  let shift := LOWER rhs in
  if negb (UPPER rhs =? 0) || (128 <=? shift) then uint128_0
  else if shift =? 64 then mk128 (LOWER a) 0
  else if shift =? 0 then a
  else if shift <? 64 then
    mk128 (add64 (shl64 (UPPER a) shift) (shr64 (LOWER a) (64 - shift))) (shl64 (LOWER a) shift)
  else if (shift <? 128) && (64 <? shift) then mk128 (shl64 (LOWER a) (shift - 64)) 0
  else uint128_0.

(** src/PoW/uint128.cpp:120-140. *)
Definition op_shr (a rhs : u128) : u128 :=
  let shift := LOWER rhs in
  if negb (UPPER rhs =? 0) || (128 <=? shift) then uint128_0
  else if shift =? 64 then mk128 0 (UPPER a)
  else if shift =? 0 then a
  else if shift <? 64 then
    mk128 (shr64 (UPPER a) shift) (add64 (shl64 (UPPER a) (64 - shift)) (shr64 (LOWER a) shift))
  else if (shift <? 128) && (64 <? shift) then mk128 0 (shr64 (UPPER a) (shift - 64))
  else uint128_0.

(** src/PoW/uint128.cpp:159-187. *)
Definition op_eq (a b : u128) : bool := (UPPER a =? UPPER b) && (LOWER a =? LOWER b).
Definition op_ne (a b : u128) : bool := negb (UPPER a =? UPPER b) || negb (LOWER a =? LOWER b).
Definition op_gt (a b : u128) : bool :=
  if UPPER a =? UPPER b then LOWER b <? LOWER a else UPPER b <? UPPER a.
Definition op_lt (a b : u128) : bool :=
  if UPPER a =? UPPER b then LOWER a <? LOWER b else UPPER a <? UPPER b.
Definition op_ge (a b : u128) : bool := op_gt a b || op_eq a b.
Definition op_le (a b : u128) : bool := op_lt a b || op_eq a b.

(** src/PoW/uint128.cpp:189-197. *)
Definition op_add (a b : u128) : u128 :=
  mk128 (add64 (add64 (UPPER a) (UPPER b)) (b2n (add64 (LOWER a) (LOWER b) <? LOWER a)))
        (add64 (LOWER a) (LOWER b)).
(** src/PoW/uint128.cpp:199-206. *)
Definition op_sub (a b : u128) : u128 :=
  mk128 (sub64 (sub64 (UPPER a) (UPPER b)) (b2n (LOWER a <? sub64 (LOWER a) (LOWER b))))
        (sub64 (LOWER a) (LOWER b)).
(** src/PoW/uint128.cpp:333-335. *)
Definition op_neg (a : u128) : u128 := op_add (op_not a) uint128_1.

(** src/PoW/uint128.cpp:208-252. [products[3-x][y] = top[x] * bottom[y]], so row r uses
    [top[3-r]]. *)
Definition mask32 (x : N) : N := N.land x 4294967295.
Definition hi32 (x : N) : N := shr64 x 32.
Definition op_mul (a b : u128) : u128 :=
  let top0 := hi32 (UPPER a) in let top1 := mask32 (UPPER a) in
  let top2 := hi32 (LOWER a) in let top3 := mask32 (LOWER a) in
  let bot0 := hi32 (UPPER b) in let bot1 := mask32 (UPPER b) in
  let bot2 := hi32 (LOWER b) in let bot3 := mask32 (LOWER b) in
  let p00 := mul64 top3 bot0 in let p01 := mul64 top3 bot1 in
  let p02 := mul64 top3 bot2 in let p03 := mul64 top3 bot3 in
  let p11 := mul64 top2 bot1 in
  let p12 := mul64 top2 bot2 in let p13 := mul64 top2 bot3 in
  let p22 := mul64 top1 bot2 in let p23 := mul64 top1 bot3 in
  let p33 := mul64 top0 bot3 in
  let fourth32 := mask32 p03 in
  let third32 := add64 (mask32 p02) (hi32 p03) in
  let second32 := add64 (mask32 p01) (hi32 p02) in
  let first32 := add64 (mask32 p00) (hi32 p01) in
  let third32 := add64 third32 (mask32 p13) in
  let second32 := add64 second32 (add64 (mask32 p12) (hi32 p13)) in
  let first32 := add64 first32 (add64 (mask32 p11) (hi32 p12)) in
  let second32 := add64 second32 (mask32 p23) in
  let first32 := add64 first32 (add64 (mask32 p22) (hi32 p23)) in
  let first32 := add64 first32 (mask32 p33) in
  let third32 := add64 third32 (hi32 fourth32) in
  let second32 := add64 second32 (hi32 third32) in
  let first32 := add64 first32 (hi32 second32) in
  let fourth32 := mask32 fourth32 in
  let third32 := mask32 third32 in
  let second32 := mask32 second32 in
  let first32 := mask32 first32 in
  mk128 (N.lor (shl64 first32 32) second32) (N.lor (shl64 third32 32) fourth32).

(** src/PoW/uint128.cpp:345-363. [while (up) { up >>= 1; out++; }]; 64 iterations empty a
    64-bit word, so the loop is modelled with fuel 65 ([U128Proofs.bits_loop_fuel] shows that
    more fuel changes nothing). *)
Fixpoint bits_loop (fuel : nat) (w out : N) : N :=
  match fuel with
  | O => out
  | S f => if w =? 0 then out else bits_loop f (shr64 w 1) ((out + 1) mod W8)
  end.
Definition bits (a : u128) : N :=
  if negb (UPPER a =? 0) then bits_loop 65 (UPPER a) 64 else bits_loop 65 (LOWER a) 0.

(** src/PoW/uint128.cpp:275-287: one iteration of the division loop, with [x] the loop
    counter. [(lhs >> (x - 1U)) & 1] is the templated [operator&] of uint128.h:96-99. *)
Definition divmod_step (lhs rhs : u128) (x : N) (qr : u128 * u128) : u128 * u128 :=
  let q := op_shl (fst qr) uint128_1 in
  let r := op_shl (snd qr) uint128_1 in
  let r := if to_bool (mk128 0 (N.land (LOWER (op_shr lhs (of64 (x - 1)))) 1))
           then op_add r uint128_1 else r in
  if op_ge r rhs then (op_add q uint128_1, op_sub r rhs) else (q, r).
(** [for (uint8_t x = lhs.bits(); x > 0; x--)]. *)
Fixpoint divmod_loop (lhs rhs : u128) (n : nat) (qr : u128 * u128) : u128 * u128 :=
  match n with
  | O => qr
  | S m => divmod_loop lhs rhs m (divmod_step lhs rhs (N.of_nat n) qr)
  end.
(** src/PoW/uint128.cpp:259-289. *)
Definition divmod (lhs rhs : u128) : outcome (u128 * u128) :=
  if op_eq rhs uint128_0 then Throw
  else if op_eq rhs uint128_1 then Ret (lhs, uint128_0)
  else if op_eq lhs rhs then Ret (uint128_1, uint128_0)
  else if op_eq lhs uint128_0 || op_lt lhs rhs then Ret (uint128_0, lhs)
  else Ret (divmod_loop lhs rhs (N.to_nat (bits lhs)) (uint128_0, uint128_0)).
(** src/PoW/uint128.cpp:291-302. *)
Definition op_div (a b : u128) : outcome u128 := omap fst (divmod a b).
Definition op_mod (a b : u128) : outcome u128 := omap snd (divmod a b).

(** src/PoW/PoWValidator.cpp:57-90 after the choice of the scaling factor. [hash8] are the
    first eight bytes of the proof hash; [reverse_copy] followed by [memcpy] into a
    [uint64_t] on a little-endian machine reads them big endian. *)
Definition GetMaximumDifficulty (scalingDifficulty : N) (hash8 : bytes) : outcome N :=
  let temp := rev hash8 in
  let hash64 := le_value temp in
  let scaled := op_shl (of64 scalingDifficulty) (of64 64) in
  let hash128 := of64 (N.max 1 hash64) in
  let* difference := op_div scaled hash128 in
  if op_lt difference (of64 (W64 - 1)) then Ret (to64 difference) else Ret (W64 - 1).
