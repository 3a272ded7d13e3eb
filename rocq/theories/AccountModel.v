(** Model of the accounts and sessions of the wallet: src/Wallet/{WalletManagerImpl,SessionManager,ForeignController}.cpp,
    src/Wallet/Keychain/SeedEncrypter.cpp, src/Wallet/WalletDB/Sqlite/SqliteStore.cpp and the handlers of the owner API.
    Simplified: a user name is the name of a directory (names with slashes or dots are paths and not considered); seed.json holds the
    encrypted seed (its text encodings are in TextModel); the files of a user are created and removed together; databases and servers
    can be opened. *)
From Verif Require Import Base Bytes TextModel.
Local Open Scope N_scope.

(** The primitives: scrypt and Blake2b (src/Crypto/KDF.cpp:10-20), AES (src/Crypto/AES256.cpp; decrypting fails if the padding is wrong or
    nothing is left), HMAC and SHA256 (src/Crypto/Hasher.cpp). *)
Record crypto := mkCrypto {
  PBKDF : bytes -> bytes -> N * N * N -> bytes;
  AES_Encrypt : bytes -> bytes -> bytes -> bytes;
  AES_Decrypt : bytes -> bytes -> bytes -> option bytes;
  HMAC_SHA256 : bytes -> bytes -> bytes;
  SHA_256 : bytes -> bytes }.

(** std::unordered_map. *)
Section Maps.
Context {K V : Type} (eqb : K -> K -> bool).
Fixpoint get (k : K) (l : list (K * V)) : option V := match l with [] => None | (k', v) :: l' => if eqb k' k then Some v else get k l' end.
Definition erase (k : K) (l : list (K * V)) : list (K * V) := filter (fun e => negb (eqb (fst e) k)) l.
Definition put (k : K) (v : V) (l : list (K * V)) : list (K * V) := (k, v) :: erase k l.
End Maps.

(** src/Wallet/.../EncryptedSeed.h:75-79. *)
Record EncryptedSeed := mkSeed { e_iv : bytes; e_salt : bytes; e_bytes : bytes; e_params : N * N * N }.
(** include/Wallet/SessionToken.h:52-54. *)
Record SessionToken := mkToken { t_id : N; t_key : bytes }.
(** LoggedInSession.h: the wallet (its user and seed) and the encrypted seed. *)
Record session := mkSession { s_user : bytes; s_seed : bytes; s_encrypted : bytes }.
(** The files of the wallets, the open databases (SqliteStore.h: m_userDBs), SessionManager.h: m_sessionsById, m_nextSessionId, and
    ForeignController.h: m_contextsByUsername (references, and the token the server was created with). *)
Record manager := mkMgr { a_files : list (bytes * EncryptedSeed); a_open : list bytes; a_sessions : list (N * session); a_next : N;
  a_listeners : list (bytes * (N * SessionToken)) }.
Definition start (id : N) : manager := mkMgr [] [] [] id [].

(** What the random number generator gives: [n] bytes of [r]. *)
Definition GenerateRandomBytes (n : nat) (r : nat -> N) : bytes := map r (seq 0 n).
Definition xor_bytes (a b : bytes) : bytes := map (fun p => N.lxor (fst p) (snd p)) (combine a b).

Section Accounts.
Variable c : crypto.

(** SeedEncrypter.cpp:10-47. With less than 32 bytes the iterators are before the beginning: [Fault]. *)
Definition DecryptWalletSeed (e : EncryptedSeed) (password : bytes) : outcome bytes :=
  let passwordHash := PBKDF c password (e_salt e) (e_params e) in
  match AES_Decrypt c (e_bytes e) passwordHash (e_iv e) with
  | None => Throw
  | Some decrypted =>
    if (length decrypted <? 32)%nat then Fault else
    let walletSeed := firstn (length decrypted - 32) decrypted in
    if bytes_eqb (HMAC_SHA256 c walletSeed passwordHash) (skipn (length decrypted - 32) decrypted) then Ret walletSeed else Throw
  end.
(** 49-72. *)
Definition EncryptWalletSeed (walletSeed password iv salt : bytes) : EncryptedSeed :=
  let parameters := (32768, 8, 1) in
  let passwordHash := PBKDF c password salt parameters in
  mkSeed iv salt (AES_Encrypt c (walletSeed ++ HMAC_SHA256 c walletSeed passwordHash) passwordHash iv) parameters.

Definition LoadWalletSeed (m : manager) (username : bytes) : outcome EncryptedSeed :=
  match get bytes_eqb username (a_files m) with Some e => Ret e | None => Throw end.
(** SqliteStore.cpp:34-69: OpenWallet; 71-78: CloseWallet. *)
Definition OpenWallet (m : manager) (username : bytes) : manager :=
  if existsb (bytes_eqb username) (a_open m) then m else mkMgr (a_files m) (username :: a_open m) (a_sessions m) (a_next m) (a_listeners m).
Definition CloseWallet (m : manager) (username : bytes) : manager :=
  mkMgr (a_files m) (filter (fun u => negb (bytes_eqb u username)) (a_open m)) (a_sessions m) (a_next m) (a_listeners m).
(** 80-104: CreateWallet. *)
Definition CreateWallet (m : manager) (username : bytes) (e : EncryptedSeed) : outcome manager :=
  match get bytes_eqb username (a_files m) with
  | Some _ => Throw
  | None => Ret (OpenWallet (mkMgr (put bytes_eqb username e (a_files m)) (a_open m) (a_sessions m) (a_next m) (a_listeners m)) username)
  end.
(** 106-123: DeleteWallet. *)
Definition Store_DeleteWallet (m : manager) (username : bytes) : outcome manager :=
  if existsb (bytes_eqb username) (a_open m) then Throw else
  match get bytes_eqb username (a_files m) with
  | None => Throw
  | Some _ => Ret (mkMgr (erase bytes_eqb username (a_files m)) (a_open m) (a_sessions m) (a_next m) (a_listeners m))
  end.

(** ForeignController.cpp:31-65, 67-84. *)
Definition StartListener (username : bytes) (token : SessionToken) (l : list (bytes * (N * SessionToken))) : list (bytes * (N * SessionToken)) :=
  match get bytes_eqb username l with
  | Some (n, t) => put bytes_eqb username (n + 1, t) l
  | None => put bytes_eqb username (1, token) l
  end.
Definition StopListener (username : bytes) (l : list (bytes * (N * SessionToken))) : list (bytes * (N * SessionToken)) :=
  match get bytes_eqb username l with
  | Some (n, t) => if n - 1 =? 0 then erase bytes_eqb username l else put bytes_eqb username (n - 1, t) l
  | None => l
  end.

(** SessionManager.cpp:123-189: Login with the seed. *)
Definition seed_with_checksum (seed : bytes) : bytes := seed ++ firstn 4 (SHA_256 c seed).
Definition Login_seed (m : manager) (username seed : bytes) (r : nat -> N) : manager * SessionToken :=
  let tokenKey := GenerateRandomBytes (length (seed_with_checksum seed)) r in
  let token := mkToken (a_next m) tokenKey in
  let m := OpenWallet m username in
  (mkMgr (a_files m) (a_open m) (put N.eqb (a_next m) (mkSession username seed (xor_bytes (seed_with_checksum seed) tokenKey)) (a_sessions m)) (add64 (a_next m) 1)
     (StartListener username token (a_listeners m)), token).
(** 99-121: Login with the password. *)
Definition Session_Login (m : manager) (username password : bytes) (r : nat -> N) : outcome (manager * SessionToken) :=
  let* e := LoadWalletSeed m username in
  let* seed := DecryptWalletSeed e password in
  Ret (Login_seed (OpenWallet m username) username seed r).
(** 191-203: Logout. *)
Definition Logout (m : manager) (token : SessionToken) : manager :=
  match get N.eqb (t_id token) (a_sessions m) with
  | None => m
  | Some s =>
    let m1 := mkMgr (a_files m) (a_open m) (a_sessions m) (a_next m) (StopListener (s_user s) (a_listeners m)) in
    let m2 := match get bytes_eqb (s_user s) (a_listeners m1) with Some _ => m1 | None => CloseWallet m1 (s_user s) end in
    mkMgr (a_files m2) (a_open m2) (erase N.eqb (t_id token) (a_sessions m2)) (a_next m2) (a_listeners m2)
  end.
(** 205-232: GetSeed of a token. The key is read as far as the encrypted seed is long. *)
Definition GetSeed (m : manager) (token : SessionToken) : outcome bytes :=
  match get N.eqb (t_id token) (a_sessions m) with
  | None => Throw
  | Some s =>
    if (length (t_key token) <? length (s_encrypted s))%nat then Fault else
    let seedWithCS := xor_bytes (s_encrypted s) (t_key token) in
    let seed := firstn (length seedWithCS - 4) seedWithCS in
    if bytes_eqb (skipn (length seedWithCS - 4) seedWithCS) (firstn 4 (SHA_256 c seed)) then Ret seed else Throw
  end.
(** 75-97: GetSeed of a user; 50-73: Authenticate. *)
Definition GetSeed_user (m : manager) (username password : bytes) : outcome bytes :=
  let* e := LoadWalletSeed m username in DecryptWalletSeed e password.

(** * The operations of the owner API *)
Inductive op :=
| OpCreate (username password : bytes) (numWords : N) (rs rk : nat -> N) (iv salt : bytes)
| OpRestore (username password : bytes) (entropy : option bytes) (rk : nat -> N) (iv salt : bytes)   (* [None]: the words are not a phrase *)
| OpLogin (username password : bytes) (refreshed : bool) (rk : nat -> N)                             (* whether the node answered *)
| OpLogout (token : SessionToken)
| OpDelete (username password : bytes)
| OpChangePassword (username password new : bytes) (iv salt : bytes)
| OpSeedWords (username password : bytes)
| OpUse (token : SessionToken)                                                                       (* any operation of the wallet *)
| OpIncoming (username : bytes).                                                                     (* a payment comes to the listener of a user *)
Inductive result := RToken (token : SessionToken) (seed : option bytes) | RSeed (seed : bytes) | RDone.

(** FileUtil.cpp:187-232: the accounts are the directories that do not begin with a dot. *)
Definition GetAllAccounts (m : manager) : list bytes := filter (fun u => negb (StartsWith u [46])) (map fst (a_files m)).
Definition has_account (m : manager) (username : bytes) : bool := existsb (fun u => bytes_eqb (ToLower u) username) (GetAllAccounts m).
Definition fails (m : manager) (o : outcome (manager * result)) : manager * outcome result :=
  match o with Ret (m', r) => (m', Ret r) | Throw => (m, Throw) | Fault => (m, Fault) end.
(** WalletManagerImpl.cpp:52-84: InitializeNewWallet, behind CreateWalletHandler.h:40-77 and CreateWalletCriteria.h:39;
    86-113: RestoreFromSeed, behind RestoreWalletHandler.h:43-79; 205-233: Login, behind LoginHandler.h:47-63 (the user name is not trimmed);
    235: Logout; 240-256: DeleteWallet; 258-270: ChangePassword; 115-122: GetSeedWords. *)
Definition step (m : manager) (o : op) : manager * outcome result :=
  match o with
  | OpCreate username password numWords rs rk iv salt =>
    let username := ToLower (Trim username) in
    if (has_account m username || match password with [] => true | _ => false end || (numWords <? 12) || (24 <? numWords) || negb (numWords mod 3 =? 0))%bool then (m, Throw) else
    let seed := GenerateRandomBytes (N.to_nat (4 * numWords / 3)) rs in
    fails m (let* m := CreateWallet m username (EncryptWalletSeed seed password iv salt) in
      let '(m, token) := Login_seed m username seed rk in Ret (m, RToken token (Some seed)))
  | OpRestore username password entropy rk iv salt =>
    let username := ToLower (Trim username) in
    match entropy with
    | None => (m, Throw)
    | Some seed =>
      if (has_account m username || match password with [] => true | _ => false end)%bool then (m, Throw) else
      fails m (let* m := CreateWallet m username (EncryptWalletSeed seed password iv salt) in
        let '(m, token) := Login_seed m username seed rk in Ret (m, RToken token (Some seed)))
    end
  | OpLogin username password refreshed rk =>
    let username := ToLower username in
    if negb (has_account m username) then (m, Throw) else
    match Session_Login m username password rk with
    | Ret (m, token) => (m, if refreshed then Ret (RToken token None) else Throw)
    | Throw => (m, Throw)
    | Fault => (m, Fault)
    end
  | OpLogout token => (Logout m token, Ret RDone)
  | OpDelete username password =>
    fails m (let* _ := GetSeed_user m (ToLower username) password in let* m := Store_DeleteWallet m (ToLower username) in Ret (m, RDone))
  | OpChangePassword username password new iv salt =>
    fails m (let* seed := GetSeed_user m (ToLower username) password in
      Ret (mkMgr (put bytes_eqb (ToLower username) (EncryptWalletSeed seed new iv salt) (a_files m)) (a_open m) (a_sessions m) (a_next m) (a_listeners m), RDone))
  | OpSeedWords username password => fails m (let* seed := GetSeed_user m (ToLower username) password in Ret (m, RSeed seed))
  | OpUse token => fails m (let* seed := GetSeed m token in Ret (m, RSeed seed))
  | OpIncoming username =>
    match get bytes_eqb username (a_listeners m) with
    | None => (m, Throw)
    | Some (_, token) => fails m (let* seed := GetSeed m token in Ret (m, RSeed seed))
    end
  end.
Fixpoint run (ops : list op) (m : manager) : manager * list (op * outcome result) :=
  match ops with
  | [] => (m, [])
  | o :: ops' => let '(m, r) := step m o in let '(m, h) := run ops' m in (m, (o, r) :: h)
  end.
End Accounts.
