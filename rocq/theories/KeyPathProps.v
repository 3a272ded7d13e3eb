(** C42: key derivation paths. *)
From Coq Require Import Ascii String.
From Verif Require Import Base Bytes FileModel TextModel TextSpec KeyPathModel KeyPathSpec KeyPathProofs.
Local Open Scope N_scope.
Local Open Scope list_scope.

(** The text of a path is m/i/j/... in decimal, different paths have different texts, and reading the
    text returns the path as long as every index is below 2^31. *)
Theorem C42_text_format p : path_text (Format p) p.
Proof. exact (format_text p). Qed.
Theorem C42_text_injective p p' : Format p = Format p' -> p = p'.
Proof. exact (format_inj p p'). Qed.
Theorem C42_text_roundtrip_partial p : Forall (fun i => i < 2147483648) p -> FromString (Format p) = Ret p.
Proof. exact (text_roundtrip p). Qed.
(** An index of 2^31 or more is written but never read back: the wallet stores the text of each output's
    path, so one such output makes every later reading of the output table fail. *)
Theorem C42_text_lost p : (exists i, In i p /\ 2147483648 <= i) -> FromString (Format p) = Throw.
Proof. exact (text_lost p). Qed.
Theorem C42_text_refuted : exists p, Forall index32 p /\ FromString (Format p) <> Ret p.
Proof. exists [0; 0; 2147483648]. split; [repeat constructor|]. vm_compute. discriminate. Qed.

(** The hexadecimal form holds up to four indices. *)
Theorem C42_hex_roundtrip_partial p : (length p <= 4)%nat -> Forall index32 p -> Path_FromHex (ToHex p) = Ret p.
Proof. exact (hex_path_roundtrip p). Qed.
Theorem C42_hex_long_lost p : (4 < length p < 256)%nat -> Path_FromHex (ToHex p) = Throw.
Proof. exact (hex_path_long p). Qed.

(** how many paths a history hands out from the wallet's own counter *)
Definition handed (op : path_op) : nat := match op with Outputs n true => n | Coinbase _ true => 1 | _ => 0 end.
Definition own_path (op : path_op) : Prop := match op with Coinbase (Some _) true => False | _ => True end.

(** Whatever the random starting point and the history of sends, receives, coinbases, rolled-back
    batches and restarts, the outputs given out have pairwise different paths, up to 2^32 of them,
    as long as no coinbase brings its own path. *)
Theorem C42_paths_distinct_partial r ops ps a :
  Forall own_path ops -> N.of_nat (list_sum (map handed ops)) <= 4294967296 ->
  path_run ops (CreateAccounts r) = Ret (ps, a) -> NoDup ps /\ length ps = list_sum (map handed ops).
Proof.
  intros F L E. assert (F' : Forall no_explicit ops) by exact F.
  pose proof (run_spec ops F' r) as Q. unfold at_index, USER in Q. fold (CreateAccounts r) in Q. rewrite Q in E.
  pose proof (f_equal (fun o => match o with Ret x => fst x | _ => ps end) E) as E1. cbv beta iota in E1. cbn [fst] in E1. subst ps.
  split; [apply paths_distinct; exact L|]. rewrite map_length, seq_length. reflexivity.
Qed.

(** The wallet never fails to hand out a path. *)
Theorem C42_paths_available r ops : Forall own_path ops -> exists ps a, path_run ops (CreateAccounts r) = Ret (ps, a).
Proof.
  intros F. assert (F' : Forall no_explicit ops) by exact F. pose proof (run_spec ops F' r) as Q. unfold at_index, USER in Q. fold (CreateAccounts r) in Q. eauto.
Qed.

(** The first million of them are below 2^31 and survive the text stored with the output. *)
Theorem C42_paths_stored r ops ps a p :
  r <= 2147483648 - 1000000 -> Forall own_path ops -> (list_sum (map handed ops) <= 1000 * 1000)%nat ->
  path_run ops (CreateAccounts r) = Ret (ps, a) -> In p ps -> FromString (Format p) = Ret p.
Proof.
  intros Hr F L E Hp. assert (F' : Forall no_explicit ops) by exact F.
  pose proof (run_spec ops F' r) as Q. unfold at_index, USER in Q. fold (CreateAccounts r) in Q. rewrite Q in E.
  pose proof (f_equal (fun o => match o with Ret x => fst x | _ => ps end) E) as E1. cbv beta iota in E1. cbn [fst] in E1. subst ps.
  apply in_map_iff in Hp. destruct Hp as (j & <- & Hj). apply in_seq in Hj. apply text_roundtrip.
  unfold child, GetChild, USER_PATH. cbn [app]. change (cost ops) with (list_sum (map handed ops)) in Hj.
  assert (B : N.of_nat j < 1000000) by lia.
  repeat constructor. rewrite N.mod_small; lia.
Qed.

(** Not without the conditions. A coinbase may bring a path that is already in use. *)
Theorem C42_explicit_path_refuted : exists r ops ps a, r <= 2147483648 - 1000000 /\
  path_run ops (CreateAccounts r) = Ret (ps, a) /\ ~ NoDup ps.
Proof.
  exists 7, [Outputs 1 true; Coinbase (Some [0; 0; 7]) true], [[0; 0; 7]; [0; 0; 7]], [(Format USER_PATH, 9%Z)].
  split; [lia|]. split; [vm_compute; reflexivity|]. intros N. inversion N as [|? ? H _]. apply H. left. reflexivity.
Qed.
(** A wallet restored from its seed starts at a new random index and may hand out a path again. *)
Theorem C42_restored_refuted : exists r r' ops ops' ps ps' a a' p,
  r <= 2147483648 - 1000000 /\ r' <= 2147483648 - 1000000 /\ Forall own_path (ops ++ ops') /\
  path_run ops (CreateAccounts r) = Ret (ps, a) /\ path_run ops' (CreateAccounts r') = Ret (ps', a') /\ In p ps /\ In p ps'.
Proof.
  exists 5, 6, [Outputs 2 true], [Outputs 1 true], [[0; 0; 5]; [0; 0; 6]], [[0; 0; 6]], [(Format USER_PATH, 7%Z)], [(Format USER_PATH, 7%Z)], [0; 0; 6].
  split; [lia|]. split; [lia|]. split; [repeat constructor|]. split; [vm_compute; reflexivity|]. split; [vm_compute; reflexivity|].
  split; [right; left; reflexivity|left; reflexivity].
Qed.

(** A history with a rolled-back send: its paths come back for the next one, and nothing is repeated. *)
Example C42_example : path_run [Outputs 2 true; Outputs 3 false; Restart; Coinbase None true; Outputs 1 true] (CreateAccounts 2146483648) =
  Ret ([[0; 0; 2146483648]; [0; 0; 2146483649]; [0; 0; 2146483650]; [0; 0; 2146483651]], [(text "m/0/0", 2146483652%Z)]).
Proof. vm_compute. reflexivity. Qed.
Example C42_text_example : Format [0; 0; 2146483648] = text "m/0/0/2146483648" /\ FromString (text "m/0/1/ 12") = Ret [0; 1; 12].
Proof. split; vm_compute; reflexivity. Qed.

Definition keypath_theorems := (C42_text_format, C42_text_injective, C42_text_roundtrip_partial, C42_text_lost, C42_text_refuted, C42_hex_roundtrip_partial,
  C42_hex_long_lost, C42_paths_distinct_partial, C42_paths_available, C42_paths_stored, C42_explicit_path_refuted, C42_restored_refuted).
Print Assumptions keypath_theorems.
