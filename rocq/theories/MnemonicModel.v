(** Model of the seed phrases, src/Wallet/Keychain/Mnemonic.cpp. *)
From Verif Require Import Base Bytes FileModel TextModel WordListData.
Local Open Scope N_scope.

(** src/Wallet/Keychain/WordList.h:6-2055 *)
Definition WORD_LIST : list bytes := map chars word_strings.

(** `v[i] |= x`; an index past the end is undefined behaviour *)
Fixpoint or_at (v : list N) (i : nat) (x : N) : outcome (list N) :=
  match v, i with
  | [], _ => Fault
  | y :: v', O => Ret (N.lor y x :: v')
  | y :: v', S i' => let* r := or_at v' i' x in Ret (y :: r)
  end.

(** `(x & (1 << k)) == 0 ? 0 : 1`, Mnemonic.cpp:27,37,101 *)
Definition get_bit (x k : N) : N := if N.land x (N.shiftl 1 k) =? 0 then 0 else 1.

Section WithHash.
(** Hasher::SHA256 (external library) *)
Variable SHA256 : bytes -> bytes.

(** one step of the packing loops, Mnemonic.cpp:27-29 and 37-39 *)
Definition put_bit (st : list N * N) (bit : N) : outcome (list N * N) :=
  let '(w, loc) := st in
  let* w' := or_at w (N.to_nat (loc / 11)) (N.shiftl bit (10 - loc mod 11)) in
  Ret (w', loc + 1).

(** bits j, j-1, ..., 1 (1-based) of [x]: the inner loops of Mnemonic.cpp:25-30 and 35-40 *)
Fixpoint put_bits (x : N) (j : nat) (st : list N * N) : outcome (list N * N) :=
  match j with
  | O => Ret st
  | S j' => let* st' := put_bit st (get_bit x (N.of_nat j')) in put_bits x j' st'
  end.

(** Mnemonic.cpp:22-31 *)
Fixpoint put_bytes (entropy : bytes) (st : list N * N) : outcome (list N * N) :=
  match entropy with
  | [] => Ret st
  | b :: entropy' => let* st' := put_bits b 8 st in put_bytes entropy' st'
  end.

(** Mnemonic.cpp:42-51, joining with " "; [first] is `i == 0` *)
Fixpoint join_words (first : bool) (indices : list N) : outcome bytes :=
  match indices with
  | [] => Ret []
  | i :: indices' =>
      match nth_error WORD_LIST (N.to_nat i) with
      | None => Fault
      | Some w =>
          let* r := join_words false indices' in
          Ret ((if first then [] else [32]) ++ w ++ r)
      end
  end.

(** the checksum: Mnemonic.cpp:33-34 and 87, 107. A shift by [8 - checksumBits] is undefined
    when checksumBits exceeds 8. *)
Definition checksum_of (entropy : bytes) (checksumBits : N) : outcome N :=
  if 8 <? checksumBits then Fault else
  let mask := (N.shiftl 1 checksumBits - 1) mod 256 in
  Ret (N.land (N.shiftr (nth 0 (SHA256 entropy) 0) (8 - checksumBits)) mask).

(** Mnemonic.cpp:15-40 *)
Definition word_indices (entropy : bytes) : outcome (list N) :=
  let entropyBits := nlen entropy * 8 in
  let checksumBits := entropyBits / 32 in
  let numWords := (entropyBits + checksumBits) / 11 in
  let* st := put_bytes entropy (repeat 0 (N.to_nat numWords), 0) in
  let* checksum := checksum_of entropy checksumBits in
  let* st' := put_bits checksum (N.to_nat checksumBits) st in
  Ret (fst st').

(** Mnemonic.cpp:8-54 CreateMnemonic *)
Definition CreateMnemonic (entropy : bytes) : outcome bytes :=
  if negb (nlen entropy mod 4 =? 0) then Throw else
  let* w := word_indices entropy in
  join_words true w.

(** Mnemonic.cpp:70-78, the first position of a word in the list *)
Fixpoint find_word (l : list bytes) (w : bytes) (j : N) : option N :=
  match l with
  | [] => None
  | x :: l' => if bytes_eqb x w then Some j else find_word l' w (j + 1)
  end.

(** Mnemonic.cpp:66-84 *)
Fixpoint find_words (words : list bytes) : outcome (list N) :=
  match words with
  | [] => Ret []
  | w :: words' =>
      match find_word WORD_LIST w 0 with
      | None => Throw
      | Some j => let* r := find_words words' in Ret (j :: r)
      end
  end.

(** Mnemonic.cpp:99-104, bits k, k+1, ... of one word ([n] of them) *)
Fixpoint take_bits (w : N) (dataLength : N) (n : nat) (k : N) (st : list N * N) : outcome (list N * N) :=
  match n with
  | O => Ret st
  | S n' =>
      let '(e, loc) := st in
      let* e' := or_at e (N.to_nat (dataLength - loc / 8)) (N.shiftl (get_bit w k) (loc mod 8)) in
      take_bits w dataLength n' (k + 1) (e', loc + 1)
  end.

(** Mnemonic.cpp:97-105; [ws] are the words before the last one, last first *)
Fixpoint take_words (ws : list N) (dataLength : N) (st : list N * N) : outcome (list N * N) :=
  match ws with
  | [] => Ret st
  | w :: ws' => let* st' := take_bits w dataLength 11 0 st in take_words ws' dataLength st'
  end.

(** Mnemonic.cpp:86-113, from the word indices on *)
Definition entropy_of (wordIndices : list N) : outcome bytes :=
  let numWords := nlen wordIndices in
  let checksumBits := numWords / 3 in
  let mask := (N.shiftl 1 checksumBits - 1) mod 256 in
  let back := last wordIndices 0 in
  let expectedChecksum := N.land (back mod 256) mask in
  let dataLength := (11 * numWords - checksumBits) / 8 - 1 in
  let entropy := repeat 0 (N.to_nat dataLength) ++ [N.shiftr back checksumBits mod 256] in
  let* st := take_words (tl (rev wordIndices)) dataLength (entropy, 11 - checksumBits) in
  let* actualChecksum := checksum_of (fst st) checksumBits in
  if negb (actualChecksum =? expectedChecksum) then Throw else Ret (fst st).

(** Mnemonic.cpp:56-114 ToEntropy *)
Definition ToEntropy (walletWords : bytes) : outcome bytes :=
  let words := Split (Trim (c_str walletWords)) 32 in
  let numWords := nlen words in
  if (numWords <? 12) || (24 <? numWords) || negb (numWords mod 3 =? 0) then Throw else
  let* wordIndices := find_words words in
  entropy_of wordIndices.
End WithHash.
