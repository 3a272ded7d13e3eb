(** Specification of encrypted messages (C68), independent of the model's helpers: what is assumed of the ciphers, and toy ciphers that satisfy it. *)
From Coq Require Import Ascii String.
From Verif Require Import Base Bytes FileModel TextModel AgeModel.
Local Open Scope N_scope.
Local Open Scope list_scope.

(** What is assumed of the ciphers: both sides find the same secret; a sealed text is 16 bytes longer, and opens with its key and nonce only to
    what was sealed; public keys, sealed texts and authentication codes are bytes of the usual lengths. *)
Record lawful (C : age_crypto) : Prop := mkLawful {
  shared_alike : forall a b, ECDH C a (ToPubKey C b) = ECDH C b (ToPubKey C a);
  open_seal : forall k n c m, Open C k n c = Some m <-> c = Seal C k n m;
  seal_length : forall k n m, length (Seal C k n m) = (length m + 16)%nat;
  seal_bytes : forall k n m, is_bytes m -> is_bytes (Seal C k n m);
  pub_length : forall s, length (ToPubKey C s) = 32%nat;
  pub_bytes : forall s, is_bytes (ToPubKey C s);
  mac_bytes : forall k m, is_bytes (HMAC_SHA256 C k m);
  mac_nonempty : forall k m, HMAC_SHA256 C k m <> [] }.

(** The key under which the file key is sealed for the owner of [public], by who made [ephemeral]. *)
Definition wrapping_key (C : age_crypto) (secret other ephemeral public : bytes) : option bytes :=
  match ECDH C secret other with
  | Some shared => Some (HKDF C (Some (ephemeral ++ public)) (chars "age-encryption.org/v1/X25519") shared)
  | None => None
  end.
(** The owner of [secret] opens the line made with the secret key [s] for [recipient] when it is the recipient, and not otherwise. *)
Definition opens_only_own (C : age_crypto) (secret file_key : bytes) (secrets recipients : list bytes) : Prop :=
  forall s r k k', In (s, r) (combine secrets recipients) -> r <> ToPubKey C secret ->
    wrapping_key C s r (ToPubKey C s) r = Some k ->
    wrapping_key C secret (ToPubKey C s) (ToPubKey C s) (ToPubKey C secret) = Some k' ->
    Open C k' (repeat 0 12) (Seal C k (repeat 0 12) file_key) = None.

(** Toy ciphers: the public key of a secret of one byte is that byte 32 times, two of them share the sorted pair, keys are what they are made of, and
    a sealed text is followed by its key and nonce, shortened to 16 bytes. *)
Definition pad32 (b : bytes) : bytes := firstn 32 (b ++ repeat 0 32).
Definition toy_pub (s : bytes) : bytes := repeat (hd 0 s mod 256) 32.
Definition toy_ecdh (a b : bytes) : option bytes := Some [N.min (hd 0 a mod 256) (hd 0 b); N.max (hd 0 a mod 256) (hd 0 b)].
Definition toy_tag (k n : bytes) : bytes := firstn 16 ([fold_right (fun x y => (3 * x + 5 * y + 1) mod 256) 0 (k ++ n)] ++ repeat 7 16).
Definition toy_open (k n c : bytes) : option bytes :=
  let l := (length c - 16)%nat in
  if (16 <=? length c)%nat && bytes_eqb (skipn l c) (toy_tag k n) then Some (firstn l c) else None.
Definition toy : age_crypto := mkCrypto toy_ecdh toy_pub
  (fun salt label key => match salt with Some s => s ++ label ++ key | None => label ++ key end) (fun _ _ => repeat 9 32)
  (fun k n m => m ++ toy_tag k n) toy_open.

(** A text in pieces: all but the last of 65536 bytes, the last with at least one and at most that many. *)
Fixpoint pieces_ok (pieces : list bytes) : Prop :=
  match pieces with
  | [] => True
  | [p] => 0 < nlen p <= 65536
  | p :: rest => nlen p = 65536 /\ pieces_ok rest
  end.
(** The pieces sealed one by one, each under its number and whether it is the last. *)
Fixpoint sealed (C : age_crypto) (key : bytes) (number : N) (pieces : list bytes) : bytes :=
  match pieces with
  | [] => []
  | [p] => Seal C key (be_bytes 11 number ++ [1]) p
  | p :: rest => Seal C key (be_bytes 11 number ++ [0]) p ++ sealed C key (number + 1) rest
  end.
