(** C41: seed phrases. *)
From Coq Require Import Ascii String.
From Verif Require Import Base Bytes FileModel TextModel TextSpec Sha256Spec TextProofs TextCheck TextProps WordListData MnemonicModel MnemonicSpec MnemonicProofs MnemonicText.
Local Open Scope N_scope.
Local Open Scope list_scope.

(** Reading a phrase returns a seed exactly when the text is a phrase of that seed: the listed words,
    separated by spaces, whose 11-bit numbers spell the seed followed by its checksum bits. *)
Theorem C41_mnemonic_exact H s : hash_like H -> ~ In 0 s ->
  (forall e, ToEntropy H s = Ret e <-> phrase H s e) /\ ToEntropy H s <> Fault.
Proof. intros Hh. exact (to_entropy_iff H Hh s). Qed.

(** A seed of 16, 20, 24, 28 or 32 bytes makes a phrase, which gives the seed back. *)
Theorem C41_mnemonic_roundtrip H e : hash_like H -> seed_size e -> is_bytes e ->
  exists s, CreateMnemonic H e = Ret s /\ ToEntropy H s = Ret e.
Proof. intros Hh. exact (mnemonic_roundtrip H Hh e). Qed.

(** A phrase determines its seed, and a seed its words. *)
Theorem C41_mnemonic_unique H s e e' : hash_like H -> ~ In 0 s -> phrase H s e -> phrase H s e' -> e = e'.
Proof.
  intros Hh H0 P P'. destruct (to_entropy_iff H Hh s H0) as [Q _]. apply Q in P, P'. rewrite P in P'.
  apply (f_equal (fun o => match o with Ret a => a | _ => e end)) in P'. exact P'.
Qed.

(** Sizes the writer accepts but the reader does not: 4, 8 and 12 bytes. The phrase cannot be read. *)
Theorem C41_mnemonic_short_refuted : exists e s, is_bytes e /\ CreateMnemonic sha256 e = Ret s /\ ToEntropy sha256 s = Throw.
Proof. exists [1; 2; 3; 4], (value (CreateMnemonic sha256 [1; 2; 3; 4])). split; [repeat constructor|]. split; vm_compute; reflexivity. Qed.

(** Above 32 bytes the checksum needs more than eight bits and the writer shifts by a negative count. *)
Theorem C41_mnemonic_long_refuted : exists e, is_bytes e /\ nlen e = 36 /\ CreateMnemonic sha256 e = Fault.
Proof. exists (repeat 7 36). split; [repeat constructor|]. split; vm_compute; reflexivity. Qed.

(** The BIP-39 test vector: sixteen bytes 7F. *)
Example C41_mnemonic_example :
  CreateMnemonic sha256 (repeat 127 16) = Ret (text "legal winner thank year wave sausage worth useful legal winner thank yellow") /\
  ToEntropy sha256 (text " legal winner  thank year wave sausage worth useful legal winner thank yellow") = Ret (repeat 127 16) /\
  ToEntropy sha256 (text "legal winner thank year wave sausage worth useful legal winner thank zoo") = Throw.
Proof. split; [vm_compute; reflexivity|]. split; vm_compute; reflexivity. Qed.

Definition mnemonic_theorems := (@C41_mnemonic_exact, @C41_mnemonic_roundtrip, @C41_mnemonic_unique, C41_mnemonic_short_refuted, C41_mnemonic_long_refuted).
Print Assumptions mnemonic_theorems.
