(** FIPS 180-4 SHA-256 as an executable function on byte strings. The C++ code calls an external
    implementation (Hasher::SHA256); every theorem about checksums is stated for an arbitrary hash
    function, and this one is used where a concrete witness is wanted. *)
From Verif Require Import Base Bytes.
Local Open Scope N_scope.

Definition w32 (x : N) : N := x mod W32.
Definition rotr (n x : N) : N := N.lor (N.shiftr x n) (w32 (N.shiftl x (32 - n))).
Definition not32 (x : N) : N := 4294967295 - x.

Definition Ch x y z := N.lxor (N.land x y) (N.land (not32 x) z).
Definition Maj x y z := N.lxor (N.land x y) (N.lxor (N.land x z) (N.land y z)).
Definition Sigma0 x := N.lxor (rotr 2 x) (N.lxor (rotr 13 x) (rotr 22 x)).
Definition Sigma1 x := N.lxor (rotr 6 x) (N.lxor (rotr 11 x) (rotr 25 x)).
Definition sigma0 x := N.lxor (rotr 7 x) (N.lxor (rotr 18 x) (N.shiftr x 3)).
Definition sigma1 x := N.lxor (rotr 17 x) (N.lxor (rotr 19 x) (N.shiftr x 10)).

(** the first 32 bits of the fractional parts of the cube roots of the first 64 primes *)
Definition sha_K : list N := [
  0x428a2f98; 0x71374491; 0xb5c0fbcf; 0xe9b5dba5; 0x3956c25b; 0x59f111f1; 0x923f82a4; 0xab1c5ed5;
  0xd807aa98; 0x12835b01; 0x243185be; 0x550c7dc3; 0x72be5d74; 0x80deb1fe; 0x9bdc06a7; 0xc19bf174;
  0xe49b69c1; 0xefbe4786; 0x0fc19dc6; 0x240ca1cc; 0x2de92c6f; 0x4a7484aa; 0x5cb0a9dc; 0x76f988da;
  0x983e5152; 0xa831c66d; 0xb00327c8; 0xbf597fc7; 0xc6e00bf3; 0xd5a79147; 0x06ca6351; 0x14292967;
  0x27b70a85; 0x2e1b2138; 0x4d2c6dfc; 0x53380d13; 0x650a7354; 0x766a0abb; 0x81c2c92e; 0x92722c85;
  0xa2bfe8a1; 0xa81a664b; 0xc24b8b70; 0xc76c51a3; 0xd192e819; 0xd6990624; 0xf40e3585; 0x106aa070;
  0x19a4c116; 0x1e376c08; 0x2748774c; 0x34b0bcb5; 0x391c0cb3; 0x4ed8aa4a; 0x5b9cca4f; 0x682e6ff3;
  0x748f82ee; 0x78a5636f; 0x84c87814; 0x8cc70208; 0x90befffa; 0xa4506ceb; 0xbef9a3f7; 0xc67178f2].
(** of the square roots of the first 8 primes *)
Definition sha_H0 : list N := [0x6a09e667; 0xbb67ae85; 0x3c6ef372; 0xa54ff53a; 0x510e527f; 0x9b05688c; 0x1f83d9ab; 0x5be0cd19].

(** padding: 0x80, zeroes, the bit length on 8 bytes *)
Definition sha_pad (m : bytes) : bytes :=
  let n := N.of_nat (length m) in
  let z := (119 - n mod 64) mod 64 in
  m ++ 128 :: repeat 0 (N.to_nat z) ++ be_bytes 8 (8 * n).

Fixpoint words_of (l : bytes) : list N :=
  match l with
  | a :: b :: c :: d :: l' => be_value [a; b; c; d] :: words_of l'
  | _ => []
  end.

(** the message schedule, newest word first, [k] further words *)
Fixpoint schedule (k : nat) (w : list N) : list N :=
  match k with
  | O => w
  | S k' =>
      let x := w32 (sigma1 (nth 1 w 0) + nth 6 w 0 + sigma0 (nth 14 w 0) + nth 15 w 0) in
      schedule k' (x :: w)
  end.

Fixpoint sha_rounds (kw : list (N * N)) (a b c d e f g h : N) : list N :=
  match kw with
  | [] => [a; b; c; d; e; f; g; h]
  | (k, w) :: kw' =>
      let t1 := h + Sigma1 e + Ch e f g + k + w in
      let t2 := Sigma0 a + Maj a b c in
      sha_rounds kw' (w32 (t1 + t2)) a b c (w32 (d + t1)) e f g
  end.

Definition sha_block (H : list N) (block : bytes) : list N :=
  let w := rev (schedule 48 (rev (words_of block))) in
  match H with
  | [a; b; c; d; e; f; g; h] =>
      map (fun p => w32 (fst p + snd p)) (combine H (sha_rounds (combine sha_K w) a b c d e f g h))
  | _ => H
  end.

Fixpoint sha_blocks (k : nat) (H : list N) (m : bytes) : list N :=
  match k with
  | O => H
  | S k' => sha_blocks k' (sha_block H (firstn 64 m)) (skipn 64 m)
  end.

Definition sha256 (m : bytes) : bytes :=
  let p := sha_pad m in
  flat_map (be_bytes 4) (sha_blocks (length p / 64) sha_H0 p).

(** FIPS 180-4 test vector: SHA-256("abc") *)
Example sha256_abc : sha256 [97; 98; 99] = be_bytes 32 0xba7816bf8f01cfea414140de5dae2223b00361a396177a9cb410ff61f20015ad.
Proof. vm_compute. reflexivity. Qed.
(** 56 bytes: two blocks *)
Example sha256_two_blocks :
  sha256 (repeat 97 56) = be_bytes 32 0xb35439a4ac6f0948b6d6f9e3c6af0f5f590ce20f1bde7090ef7970686ec6738a.
Proof. vm_compute. reflexivity. Qed.
