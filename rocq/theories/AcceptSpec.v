(** What a valid block is, without the node: rules on the ledger, the sums, and what the header commits to. *)
From Verif Require Import Base Bytes MMRIndexModel MMRHashModel MMRHashSpec CodecModel ConsensusModel ValidationModel UtxoModel UtxoSpec.
Local Open Scope N_scope.

(** The unspent coins as a string of bits, coin 0 first (the highest bit of byte 0), cut into pieces of 1024 bits (128 bytes). The last
    piece is filled with zeros. *)
Definition unspent_bit (o : outs) (i : nat) : bool := match nth_error o i with Some (_, true) => true | _ => false end.
Definition bits_byte (f : nat -> bool) : N := fold_left (fun acc j => 2 * acc + N.b2n (f j)) (seq 0 8) 0.
Definition unspent_byte (o : outs) (k : nat) : N := bits_byte (fun j => unspent_bit o (k * 8 + j)).
Definition unspent_pieces (o : outs) : list bytes :=
  map (fun c => map (fun k => unspent_byte o (c * 128 + k)) (seq 0 128)) (seq 0 ((length o + 1023) / 1024)).

Section Valid.
Variable H : bytes -> bytes.
Variable env : Environment.
Variable verify : FullBlock -> outcome unit.
Variable sums : BlockSums -> FullBlock -> outcome BlockSums.
(** The header states the roots of the mountain ranges over all kernels, coins and range proofs of the ledger, and, from version 3 on,
    which coins are unspent. *)
Definition commits (h : BlockHeader) (l : ledger) : Prop :=
  exists kernels outputs proofs bits,
    is_mmr kernels (kernel_records (l_kernels l)) /\ is_mmr outputs (output_records (l_outs l)) /\ is_mmr proofs (proof_records (l_outs l)) /\
    is_mmr bits (unspent_pieces (l_outs l)) /\
    h_kernelRoot h = mmr_root H kernels /\ h_rangeProofRoot h = mmr_root H proofs /\
    h_outputRoot h = (if h_version h <? 3 then mmr_root H outputs else H (be_bytes 8 (h_outputMMRSize h) ++ mmr_root H outputs ++ mmr_root H bits)).
(** Blocks valid one after the other, from ledger [l] and sums [t] on: each passes its own check, spends coins that exist and are mature
    and creates new ones, adds up, and its header commits to the result. *)
Fixpoint valid_blocks (l : ledger) (t : BlockSums) (bs : list FullBlock) : Prop :=
  match bs with
  | [] => True
  | b :: rest => verify b = Ret tt /\ exists l' t', applies env 1 b l l' /\ sums t b = Ret t' /\ commits (fb_header b) l' /\ valid_blocks l' t' rest
  end.
End Valid.
