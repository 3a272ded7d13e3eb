(** What a history of operations says: who has an account with which seed and password, and which tokens are valid. *)
From Verif Require Import Base Bytes TextModel AccountModel.
Local Open Scope N_scope.

Definition event : Type := op * outcome result.
(** The account of a user: seed and password. *)
Definition account_step (u : bytes) (a : option (bytes * bytes)) (e : event) : option (bytes * bytes) :=
  match e with
  | (OpCreate name password _ _ _ _ _, Ret (RToken _ (Some seed))) => if bytes_eqb (ToLower (Trim name)) u then Some (seed, password) else a
  | (OpRestore name password _ _ _ _, Ret (RToken _ (Some seed))) => if bytes_eqb (ToLower (Trim name)) u then Some (seed, password) else a
  | (OpChangePassword name _ new _ _, Ret _) => if bytes_eqb (ToLower name) u then match a with Some (seed, _) => Some (seed, new) | None => None end else a
  | (OpDelete name _, Ret _) => if bytes_eqb (ToLower name) u then None else a
  | _ => a
  end.
Definition account (h : list event) (u : bytes) : option (bytes * bytes) := fold_left (account_step u) h None.
(** The tokens given out, with their users, whose sessions were not ended. *)
Definition tokens_step (l : list (SessionToken * bytes)) (e : event) : list (SessionToken * bytes) :=
  match e with
  | (OpCreate name _ _ _ _ _ _, Ret (RToken token _)) => (token, ToLower (Trim name)) :: l
  | (OpRestore name _ _ _ _ _, Ret (RToken token _)) => (token, ToLower (Trim name)) :: l
  | (OpLogin name _ _ _, Ret (RToken token _)) => (token, ToLower name) :: l
  | (OpLogout token, _) => filter (fun t => negb (t_id (fst t) =? t_id token)) l
  | _ => l
  end.
Definition tokens (h : list event) : list (SessionToken * bytes) := fold_left tokens_step h [].
(** What is expected of the primitives: lengths; decrypting undoes encrypting; and among the passwords in [P], only the right one opens
    an encrypted seed. *)
Record laws (c : crypto) (P : bytes -> Prop) : Prop := mkLaws {
  l_sha : forall x, (4 <= length (SHA_256 c x))%nat;
  l_hmac : forall x k, length (HMAC_SHA256 c x k) = 32%nat;
  l_aes : forall x k iv, x <> [] -> AES_Decrypt c (AES_Encrypt c x k iv) k iv = Some x;
  l_forge : forall seed p iv salt p' seed', P p -> P p' -> DecryptWalletSeed c (EncryptWalletSeed c seed p iv salt) p' = Ret seed' -> p' = p }.
(** The passwords in an operation. *)
Definition uses (P : bytes -> Prop) (o : op) : Prop :=
  match o with
  | OpCreate _ p _ _ _ _ _ | OpRestore _ p _ _ _ _ | OpLogin _ p _ _ | OpDelete _ p | OpSeedWords _ p => P p
  | OpChangePassword _ p new _ _ => P p /\ P new
  | _ => True
  end.
