(** What a seed phrase means (BIP-39), independently of how it is computed. *)
From Coq Require Import String.
From Verif Require Import Base Bytes TextSpec WordListData.
Local Open Scope N_scope.
Local Open Scope list_scope.

(** the word with a given number *)
Definition word (i : N) : bytes := text (nth (N.to_nat i) word_strings EmptyString).

(** the [n] low bits of [x], most significant first *)
Fixpoint bits (n : nat) (x : N) : list bool :=
  match n with
  | O => []
  | S n' => N.testbit x (N.of_nat n') :: bits n' x
  end.

(** the bits of the word numbers are the bits of the entropy followed by the first bits of its
    hash: one for every four bytes *)
Definition phrase_numbers (SHA256 : bytes -> bytes) (entropy : bytes) (ws : list N) : Prop :=
  Forall (fun w => w < 2048) ws /\
  flat_map (bits 11) ws =
  flat_map (bits 8) entropy ++ firstn (Nat.div (length entropy) 4) (flat_map (bits 8) (SHA256 entropy)).

(** words separated by one or more spaces *)
Inductive spaced : list bytes -> bytes -> Prop :=
| spaced_one w : spaced [w] w
| spaced_more w n ws s : spaced ws s -> spaced (w :: ws) (w ++ repeat 32 (S n) ++ s).

(** 16, 20, 24, 28 or 32 bytes *)
Definition seed_size (entropy : bytes) : Prop :=
  (16 <= length entropy <= 32)%nat /\ Nat.modulo (length entropy) 4 = O.

(** [s] is a phrase for [entropy]: its words, separated by spaces, possibly surrounded by blanks *)
Definition phrase (SHA256 : bytes -> bytes) (s entropy : bytes) : Prop :=
  seed_size entropy /\ is_bytes entropy /\
  exists ws lead body trail, s = lead ++ body ++ trail /\ blanks lead /\ blanks trail /\
    spaced (map word ws) body /\ phrase_numbers SHA256 entropy ws.
