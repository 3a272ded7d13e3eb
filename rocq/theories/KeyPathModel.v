(** Model of key derivation paths and of how the wallet hands them out.
    include/Wallet/KeyChainPath.h, src/Wallet/WalletDB/Sqlite/Tables/AccountsTable.cpp,
    src/Wallet/WalletDB/Sqlite/WalletSqlite.cpp, src/Wallet/WalletDB/Sqlite/SqliteStore.cpp. *)
From Coq Require Import Ascii String.
From Verif Require Import Base Bytes FileModel SerialModel TextModel.
Local Open Scope N_scope.
Local Open Scope list_scope.

(** KeyChainPath.h:122 m_keyIndices; every element a uint32 *)
Definition KeyChainPath := list N.

(** KeyChainPath.h:9 *)
Definition MINIMUM_HARDENED_INDEX : N := 2147483648.

(** std::to_string of an unsigned number: the last digit of [n] goes before [acc] *)
Fixpoint to_string_loop (fuel : nat) (n : N) (acc : bytes) : bytes :=
  match fuel with
  | O => acc
  | S fuel' =>
      let acc' := (48 + n mod 10) :: acc in
      if n / 10 =? 0 then acc' else to_string_loop fuel' (n / 10) acc'
  end.
Definition to_string (n : N) : bytes := to_string_loop (S (N.to_nat (N.log2 n))) n [].

(** KeyChainPath.h:32-41 Format *)
Definition Format (p : KeyChainPath) : bytes :=
  chars "m" ++ flat_map (fun i => chars "/" ++ to_string i) p.

Definition is_digit (c : N) : bool := (48 <=? c) && (c <=? 57).

(** the digits strtol consumes: value so far, remaining text *)
Fixpoint digit_run (s : bytes) (v : N) : N * bytes :=
  match s with
  | c :: s' => if is_digit c then digit_run s' (v * 10 + (c - 48)) else (v, s)
  | [] => (v, [])
  end.

(** std::stoi(s, &sz) in base 10: skips white space, takes an optional sign and the longest run of
    digits; throws when there is no digit or the value is outside int. Returns the int and the text
    after the characters consumed. Simplification: the text ends at its end or at a NUL, which no
    digit is, so the conversion to a C string changes nothing. *)
Definition stoi (s : bytes) : outcome (Z * bytes) :=
  let s1 := skip_spaces s in
  let '(neg, s2) := match s1 with
                    | c :: t => if c =? 45 then (true, t) else if c =? 43 then (false, t) else (false, s1)
                    | [] => (false, s1)
                    end in
  match s2 with
  | c :: _ =>
      if is_digit c then
        let '(v, rest) := digit_run s2 0 in
        let z := (if neg then - Z.of_N v else Z.of_N v)%Z in
        if ((-2147483648 <=? z) && (z <=? 2147483647))%Z then Ret (z, rest) else Throw
      else Throw
  | [] => Throw
  end.

(** the cast (uint32_t) of an int *)
Definition to_uint32 (z : Z) : N := Z.to_N (z mod 4294967296).
(** the conversion of a uint32_t to int *)
Definition to_int (n : N) : Z := let m := n mod 4294967296 in if m <? 2147483648 then Z.of_N m else (Z.of_N m - 4294967296)%Z.

(** KeyChainPath.h:102-118, the loop of FromString; each turn consumes at least two characters *)
Fixpoint from_string_loop (fuel : nat) (remaining : bytes) : outcome KeyChainPath :=
  match remaining with
  | c :: (_ :: _) as t =>
      match fuel with
      | O => Fault
      | S fuel' =>
          if negb (c =? 47) then Throw else
          let* p := stoi t in
          let '(z, rest) := p in
          let* r := from_string_loop fuel' rest in
          Ret (to_uint32 z :: r)
      end
  | _ => Ret []
  end.

(** KeyChainPath.h:95-121 FromString *)
Definition FromString (path : bytes) : outcome KeyChainPath :=
  match path with
  | c :: remaining => if c =? 109 then from_string_loop (length remaining) remaining else Throw
  | [] => Throw
  end.

(** KeyChainPath.h:62-72 ToHex *)
Definition ToHex (p : KeyChainPath) : bytes :=
  ConvertToHex (Append 1 (nlen p) ++ Append 4 (nth 0 p 0) ++ Append 4 (nth 1 p 0) ++ Append 4 (nth 2 p 0) ++ Append 4 (nth 3 p 0)).

(** KeyChainPath.h:43-60 FromHex *)
Definition Path_FromHex (hex : bytes) : outcome KeyChainPath :=
  let* data := FromHex hex in
  let* r := (let! size := ReadU8 in
             if 4 <? size then rthrow else read_many ReadU32 (N.to_nat size)) (mkBB 0 data 0) in
  Ret (fst r).

(** KeyChainPath.h:88-93 GetChild *)
Definition GetChild (p : KeyChainPath) (childIndex : N) : KeyChainPath := p ++ [childIndex].

(** the accounts table (AccountsTable.cpp:10-19): parent_path (unique), next_child_index.
    Simplification: account_name and current_address_index are left out. *)
Definition accounts := list (bytes * Z).

(** AccountsTable.cpp:35-45 GetNextChildIndex: throws when there is no such row *)
Fixpoint GetNextChildIndex (a : accounts) (parentPath : bytes) : outcome Z :=
  match a with
  | [] => Throw
  | (p, z) :: a' => if bytes_eqb p parentPath then Ret z else GetNextChildIndex a' parentPath
  end.

(** AccountsTable.cpp:47-56 UpdateNextChildIndex *)
Definition UpdateNextChildIndex (a : accounts) (parentPath : bytes) (index : Z) : accounts :=
  map (fun r => if bytes_eqb (fst r) parentPath then (fst r, index) else r) a.

(** WalletSqlite.cpp:45-53 GetNextChildPath *)
Definition GetNextChildPath (a : accounts) (parentPath : KeyChainPath) : outcome (KeyChainPath * accounts) :=
  let* index := GetNextChildIndex a (Format parentPath) in
  let nextChildIndex := to_uint32 index in
  let nextChildPath := GetChild parentPath nextChildIndex in
  Ret (nextChildPath, UpdateNextChildIndex a (Format parentPath) (to_int (nextChildIndex + 1))).

(** SessionManager.cpp:160, WalletImpl.cpp:39: the only user path *)
Definition USER_PATH : KeyChainPath := [0; 0].

(** SqliteStore.cpp:157-160 with KeyChainPath.h:81-86 GetRandomChild: a new wallet starts at a random
    index between 0 and 2^31 - 1000000; [random] is what CSPRNG::GenerateRandom returned *)
Definition CreateAccounts (random : N) : accounts := [(Format USER_PATH, to_int random)].

(** [n] paths in a row, as OutputBuilder.h:21-32 (n outputs) and ReceiveSlateBuilder.cpp:36 (one) do *)
Fixpoint next_paths (n : nat) (a : accounts) : outcome (list KeyChainPath * accounts) :=
  match n with
  | O => Ret ([], a)
  | S n' =>
      let* r := GetNextChildPath a USER_PATH in
      let* rs := next_paths n' (snd r) in
      Ret (fst r :: fst rs, snd rs)
  end.

(** What a wallet does with its paths. A batch is a database transaction: it ends in COMMIT, or is
    rolled back when an exception leaves it or the process stops (Lockable.h:98-152, WalletSqlite.cpp:20-43,
    SqliteTransaction.h). *)
Inductive path_op :=
| Outputs (n : nat) (commit : bool)                    (* a send or receive creating n outputs *)
| Coinbase (explicit : option KeyChainPath) (commit : bool) (* WalletImpl.cpp:163-225, Wallet.cpp:262-321 *)
| Restart.                                             (* the process stops and starts again *)

(** the paths whose outputs were given out by the operation, and the stored table afterwards *)
Definition path_step (op : path_op) (a : accounts) : outcome (list KeyChainPath * accounts) :=
  match op with
  | Outputs n commit =>
      let* r := next_paths n a in
      Ret (if commit then r else ([], a))
  | Coinbase explicit commit =>
      (* value_or evaluates its argument whether or not the path is given: WalletImpl.cpp:173-175 *)
      let* r := GetNextChildPath a USER_PATH in
      Ret (if commit then ([match explicit with Some p => p | None => fst r end], snd r) else ([], a))
  | Restart => Ret ([], a)
  end.

Fixpoint path_run (ops : list path_op) (a : accounts) : outcome (list KeyChainPath * accounts) :=
  match ops with
  | [] => Ret ([], a)
  | op :: ops' =>
      let* r := path_step op a in
      let* rs := path_run ops' (snd r) in
      Ret (fst r ++ fst rs, snd rs)
  end.
