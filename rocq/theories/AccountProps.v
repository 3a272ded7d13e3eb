(** C59: accounts and sessions of the wallet. *)
From Coq Require Import String.
From Verif Require Import Base Bytes TextModel AccountModel AccountSpec AccountProofs.
Local Open Scope N_scope.
Local Open Scope list_scope.

(** A history of operations from a start of the program, with passwords among those for which the laws hold. *)
Definition history (c : crypto) (P : bytes -> Prop) (m : manager) (h : list event) : Prop :=
  exists id0 ops, id0 < 2 ^ 64 /\ N.of_nat (List.length ops) < 2 ^ 64 /\ Forall (uses P) ops /\ run c ops (start id0) = (m, h).
Lemma history_winv c P m h : laws c P -> history c P m h -> exists id0 n, winv c P id0 n m (account h) (tokens h).
Proof.
  intros L (id0 & ops & A & B & F & E). destruct (history_inv c P L ops id0 A B F) as (n & _ & V). rewrite E in V. exists id0, n. exact V.
Qed.
Lemma lower_twice x : ToLower (ToLower x) = ToLower x.
Proof.
  unfold ToLower. rewrite map_map. apply map_ext. intros a. unfold tolower. destruct ((65 <=? a) && (a <=? 90))%bool eqn:E; [|rewrite E; reflexivity].
  apply andb_true_iff in E. destruct E as (E1 & E2). apply N.leb_le in E1, E2. destruct ((65 <=? a + 32) && (a + 32 <=? 90))%bool eqn:F; [|reflexivity]. apply andb_true_iff in F. destruct F as (_ & F). apply N.leb_le in F. lia.
Qed.

(** * Passwords *)
(** An encrypted seed is read back with its password. *)
Theorem C59_seed_round_trip c P seed p iv salt : laws c P -> DecryptWalletSeed c (EncryptWalletSeed c seed p iv salt) p = Ret seed.
Proof. intros L. exact (decrypt_right c P L seed p iv salt). Qed.
(** At any time, the words of an account are given for its current password, and for nothing else. *)
Theorem C59_password c P m h name p : laws c P -> history c P m h -> P p ->
  match account h (ToLower name) with
  | Some (seed, p0) => (p = p0 -> step c m (OpSeedWords name p) = (m, Ret (RSeed seed))) /\ (p <> p0 -> forall r, snd (step c m (OpSeedWords name p)) <> Ret r)
  | None => step c m (OpSeedWords name p) = (m, Throw)
  end.
Proof.
  intros L H Hp. destruct (history_winv _ _ _ _ L H) as (id0 & n & V). cbn [step]. destruct (account h (ToLower name)) as [(seed, p0)|] eqn:A.
  - split.
    + intros ->. rewrite (get_seed_user_right c P L _ _ _ _ _ _ _ _ (proj1 V) A). reflexivity.
    + intros Ne r. destruct (GetSeed_user c m (ToLower name) p) as [s| |] eqn:G; cbn; try discriminate. pose proof (get_seed_user c P L _ _ _ _ _ _ _ _ V Hp G). congruence.
  - unfold GetSeed_user, LoadWalletSeed. pose proof (i_files _ _ _ _ _ _ (proj1 V) (ToLower name)) as F. rewrite A in F. destruct (get bytes_eqb (ToLower name) (a_files m)); [destruct F|]. reflexivity.
Qed.
(** A user logs in with the current password only; the token gives the seed of the account. (The name must not begin with a dot.) *)
Theorem C59_login_partial c P m h name p rk : laws c P -> history c P m h -> P p ->
  (forall seed, account h (ToLower name) = Some (seed, p) -> StartsWith (ToLower name) [46] = false ->
     exists m' t, step c m (OpLogin name p true rk) = (m', Ret (RToken t None)) /\ step c m' (OpUse t) = (m', Ret (RSeed seed))) /\
  (forall m' r, step c m (OpLogin name p true rk) = (m', Ret r) -> exists seed, account h (ToLower name) = Some (seed, p)).
Proof.
  intros L H Hp. pose proof H as (id0 & ops & A0 & B0 & F0 & E0). destruct (history_winv _ _ _ _ L H) as (id1 & n & V). set (u := ToLower name).
  assert (Q : Session_Login c m u p rk = (let* seed := GetSeed_user c m u p in Ret (Login_seed c m u seed rk))).
  { unfold Session_Login, GetSeed_user. destruct (LoadWalletSeed m u) as [e| |]; cbn [obind]; try reflexivity. destruct (DecryptWalletSeed c e p); cbn [obind]; try reflexivity. rewrite open_twice. reflexivity. }
  split.
  - intros seed A Nd. cbn [step]. fold u. assert (Ha : has_account m u = true).
    { unfold has_account. apply existsb_exists. exists u. split; [|apply beqb_iff; apply lower_twice]. unfold GetAllAccounts. apply filter_In. split; [|rewrite Nd; reflexivity].
      apply (get_some_in _ beqb_iff). pose proof (i_files _ _ _ _ _ _ (proj1 V) u) as F. fold u in A. rewrite A in F. destruct (get bytes_eqb u (a_files m)); [discriminate|destruct F]. }
    rewrite Ha, Q. cbn [negb]. fold u in A. rewrite (get_seed_user_right c P L _ _ _ _ _ _ _ _ (proj1 V) A). cbn [obind].
    destruct (Login_seed c m u seed rk) as (m', t) eqn:El. exists m', t. split; [reflexivity|].
    assert (G : GetSeed c m' t = Ret seed); [|rewrite G; reflexivity]. unfold Login_seed in El. injection El as <- <-.
    set (key := GenerateRandomBytes (List.length (seed_with_checksum c seed)) rk). set (ss := mkSession u seed (xor_bytes (seed_with_checksum c seed) key)).
    rewrite <- (app_nil_r key). apply (get_seed_key c (l_sha _ _ L) _ _ ss key []).
    + cbn [a_sessions]. rewrite (get_put _ neqb_iff). replace (a_next (OpenWallet m u)) with (a_next m) by (unfold OpenWallet; destruct (existsb _ _); reflexivity). rewrite N.eqb_refl. reflexivity.
    + split; [unfold key; rewrite random_length, (checksum_length c (l_sha _ _ L)); reflexivity|reflexivity].
  - intros m' r. cbn [step]. fold u. destruct (negb _); [discriminate|]. rewrite Q. destruct (GetSeed_user c m u p) as [s| |] eqn:G; cbn [obind]; try discriminate.
    intros _. exists s. exact (get_seed_user c P L _ _ _ _ _ _ _ _ V Hp G).
Qed.
(** What fails changes nothing; a log in for which the node does not answer is the exception (see below). *)
Theorem C59_failure_changes_nothing c m o : (forall r, snd (step c m o) <> Ret r) -> (forall name p rk, o <> OpLogin name p false rk) -> fst (step c m o) = m.
Proof.
  intros F X. destruct o as [name p nw rs rk iv salt|name p en rk iv salt|name p ok rk|t|name p|name p new iv salt|name p|t|name]; cbn [step] in *.
  - destruct (_ || _ || _ || _ || _)%bool; [reflexivity|]. destruct (CreateWallet m _ _) as [m1| |]; cbn [obind fails fst snd] in *; try reflexivity. destruct (Login_seed c m1 _ _ rk) as (m2, t). destruct (F _ eq_refl).
  - destruct en; [|reflexivity]. destruct (_ || _)%bool; [reflexivity|]. destruct (CreateWallet m _ _) as [m1| |]; cbn [obind fails fst snd] in *; try reflexivity. destruct (Login_seed c m1 _ _ rk) as (m2, t). destruct (F _ eq_refl).
  - destruct (negb _); [reflexivity|]. destruct (Session_Login c m _ _ _) as [(m1, t)| |]; try reflexivity. destruct ok; [destruct (F _ eq_refl)|destruct (X name p rk eq_refl)].
  - destruct (F _ eq_refl).
  - destruct (GetSeed_user c m _ _); cbn [obind fails fst snd] in *; try reflexivity. destruct (Store_DeleteWallet m _); cbn [obind fails fst snd] in *; try reflexivity. destruct (F _ eq_refl).
  - destruct (GetSeed_user c m _ _); cbn [obind fails fst snd] in *; try reflexivity. destruct (F _ eq_refl).
  - destruct (GetSeed_user c m _ _); reflexivity.
  - destruct (GetSeed c m t); reflexivity.
  - destruct (get _ _ _) as [(r, t)|]; [destruct (GetSeed c m t)|]; reflexivity.
Qed.

(** * Tokens *)
(** A token that was given out gives the seed of its user until its session is ended, whatever else happens. *)
Theorem C59_token c P m h t u : laws c P -> history c P m h -> In (t, u) (tokens h) ->
  exists seed p, account h u = Some (seed, p) /\ step c m (OpUse t) = (m, Ret (RSeed seed)).
Proof.
  intros L H I0. destruct (history_winv _ _ _ _ L H) as (id0 & n & V & _). destruct (i_tokens _ _ _ _ _ _ V t u I0) as (ss & G & <- & K). destruct (i_sessions _ _ _ _ _ _ V _ _ G) as (_ & p & A).
  exists (s_seed ss), p. split; [exact A|]. cbn [step]. pose proof (get_seed_key c (l_sha _ _ L) m _ ss _ [] G K) as X. rewrite app_nil_r in X. destruct t as (id, key). cbn [t_id t_key] in X. rewrite X. reflexivity.
Qed.
(** Of all keys of the length, only the right one gives the seed. *)
Theorem C59_token_key c P m h t u key : laws c P -> history c P m h -> In (t, u) (tokens h) -> List.length key = List.length (t_key t) ->
  forall seed p, account h u = Some (seed, p) -> step c m (OpUse (mkToken (t_id t) key)) = (m, Ret (RSeed seed)) -> key = t_key t.
Proof.
  intros L H I0 Lk seed p A E. destruct (history_winv _ _ _ _ L H) as (id0 & n & V & _). destruct (i_tokens _ _ _ _ _ _ V t u I0) as (ss & G & <- & K). destruct (i_sessions _ _ _ _ _ _ V _ _ G) as (_ & p' & A').
  rewrite A in A'. injection A' as -> ->. cbn [step] in E. destruct (GetSeed c m (mkToken (t_id t) key)) as [s| |] eqn:Gs; cbn in E; try discriminate. injection E as ->.
  pose proof (get_seed_only c (l_sha _ _ L) m _ ss _ key G K Gs) as X. rewrite <- Lk, firstn_all in X. exact X.
Qed.
(** But a key that is too short makes the program read beyond its end. *)
Theorem C59_short_key_refuted c P m h t u key : laws c P -> history c P m h -> In (t, u) (tokens h) -> (List.length key < List.length (t_key t))%nat ->
  step c m (OpUse (mkToken (t_id t) key)) = (m, Fault).
Proof.
  intros L H I0 Lk. destruct (history_winv _ _ _ _ L H) as (id0 & n & V & _). destruct (i_tokens _ _ _ _ _ _ V t u I0) as (ss & G & <- & K). cbn [step]. rewrite (get_seed_short c (l_sha _ _ L) m _ ss _ key G K Lk). reflexivity.
Qed.
(** And anyone who guesses the number of a session can end it: the key is not checked. *)
Theorem C59_logout_key_refuted c P m h t u key : laws c P -> history c P m h -> In (t, u) (tokens h) ->
  let m' := fst (step c m (OpLogout (mkToken (t_id t) key))) in step c m' (OpUse t) = (m', Throw).
Proof.
  intros L H I0 m'. destruct (history_winv _ _ _ _ L H) as (id0 & n & V & _). destruct (i_tokens _ _ _ _ _ _ V t u I0) as (ss & G & _ & _). unfold m'. cbn [step fst]. unfold GetSeed.
  assert (X : get N.eqb (t_id t) (a_sessions (Logout m (mkToken (t_id t) key))) = None).
  { unfold Logout. cbn [t_id]. rewrite G. cbn [a_sessions]. destruct (get bytes_eqb _ _); cbn [a_sessions CloseWallet]; rewrite (get_erase _ neqb_iff), N.eqb_refl; reflexivity. }
  rewrite X. reflexivity.
Qed.

(** * Deleting *)
(** If the node answered at each log in, an account is deleted with its password exactly if no session of the user is left. *)
Definition answered (o : op) : Prop := match o with OpLogin _ _ false _ => False | _ => True end.
Definition known (m : manager) (toks : list (SessionToken * bytes)) : Prop := forall id ss, get N.eqb id (a_sessions m) = Some ss -> exists t, In (t, s_user ss) toks /\ t_id t = id.
Lemma open_sessions m u : a_sessions (OpenWallet m u) = a_sessions m /\ a_next (OpenWallet m u) = a_next m.
Proof. unfold OpenWallet. destruct (existsb _ _); split; reflexivity. Qed.
Lemma known_login c m u s r m' t toks : Login_seed c m u s r = (m', t) -> known m toks -> known m' ((t, u) :: toks).
Proof.
  intros E K id ss. unfold Login_seed in E. injection E as <- <-. cbn [a_sessions]. destruct (open_sessions m u) as (-> & ->). rewrite (get_put _ neqb_iff). destruct (N.eqb_spec (a_next m) id) as [Q|].
  - intros [= <-]. eexists. split; [left; reflexivity|exact Q].
  - intros G. destruct (K id ss G) as (t0 & T1 & T2). exists t0. split; [right; exact T1|exact T2].
Qed.
Lemma known_step c m toks o : answered o -> known m toks -> known (fst (step c m o)) (tokens_step toks (o, snd (step c m o))).
Proof.
  intros An K. assert (Cr : forall u s p iv salt rk m1 m2 t, CreateWallet m u (EncryptWalletSeed c s p iv salt) = Ret m1 -> Login_seed c m1 u s rk = (m2, t) -> known m2 ((t, u) :: toks)).
  { intros u s p iv salt rk m1 m2 t E1 E2. apply (known_login _ _ _ _ _ _ _ _ E2). unfold CreateWallet in E1. destruct (get _ _ _); [discriminate|]. injection E1 as <-. intros id ss. rewrite (proj1 (open_sessions _ u)). apply K. }
  destruct o as [name p nw rs rk iv salt|name p en rk iv salt|name p ok rk|t|name p|name p new iv salt|name p|t|name]; cbn [step answered] in *.
  - destruct (_ || _ || _ || _ || _)%bool; [exact K|]. destruct (CreateWallet m _ _) as [m1| |] eqn:E; cbn [obind fails fst snd] in *; try exact K. destruct (Login_seed c m1 _ _ rk) as (m2, t) eqn:E2. exact (Cr _ _ _ _ _ _ _ _ _ E E2).
  - destruct en; [|exact K]. destruct (_ || _)%bool; [exact K|]. destruct (CreateWallet m _ _) as [m1| |] eqn:E; cbn [obind fails fst snd] in *; try exact K. destruct (Login_seed c m1 _ _ rk) as (m2, t) eqn:E2. exact (Cr _ _ _ _ _ _ _ _ _ E E2).
  - destruct ok; [|destruct An]. destruct (negb _); [exact K|]. unfold Session_Login. destruct (LoadWalletSeed m _) as [e| |]; cbn [obind]; try exact K. destruct (DecryptWalletSeed c e p) as [s| |]; cbn [obind]; try exact K.
    rewrite open_twice. destruct (Login_seed c m _ s rk) as (m1, t) eqn:E. exact (known_login _ _ _ _ _ _ _ _ E K).
  - unfold Logout. destruct (get N.eqb (t_id t) (a_sessions m)) as [ss|] eqn:G.
    + intros id x. cbn [fst snd a_sessions tokens_step]. assert (X : get N.eqb id (erase N.eqb (t_id t) (a_sessions m)) = Some x -> exists t0, In (t0, s_user x) (filter (fun t1 => negb (t_id (fst t1) =? t_id t)) toks) /\ t_id t0 = id).
      { rewrite (get_erase _ neqb_iff). destruct (N.eqb_spec (t_id t) id) as [|Ne]; [discriminate|]. intros Gx. destruct (K id x Gx) as (t0 & T1 & T2). exists t0. split; [|exact T2]. apply filter_In. split; [exact T1|]. cbn. apply negb_true_iff, N.eqb_neq. congruence. }
      destruct (get bytes_eqb _ _); exact X.
    + cbn [fst snd tokens_step]. intros id x Gx. destruct (K id x Gx) as (t0 & T1 & T2). exists t0. split; [|exact T2]. apply filter_In. split; [exact T1|]. cbn. apply negb_true_iff, N.eqb_neq. intros Q. rewrite <- Q, T2, Gx in G. discriminate.
  - destruct (GetSeed_user c m _ _); cbn [obind fails fst snd] in *; try exact K. unfold Store_DeleteWallet. destruct (existsb _ _); cbn [obind fails fst snd]; try exact K. destruct (get bytes_eqb _ _); cbn [obind fails fst snd]; exact K.
  - destruct (GetSeed_user c m _ _); cbn [obind fails fst snd] in *; exact K.
  - destruct (GetSeed_user c m _ _); exact K.
  - destruct (GetSeed c m t); exact K.
  - destruct (get _ _ _) as [(r, t)|]; [destruct (GetSeed c m t)|]; exact K.
Qed.
Lemma known_run c ops : forall m toks, Forall answered ops -> known m toks -> known (fst (run c ops m)) (fold_left tokens_step (snd (run c ops m)) toks).
Proof.
  induction ops as [|o ops IH]; intros m toks F K; [exact K|]. inversion F as [|? ? F1 F2]; subst. cbn [run]. pose proof (known_step c m toks o F1 K) as K1. destruct (step c m o) as (m1, r1). cbn [fst snd] in K1.
  pose proof (IH m1 _ F2 K1) as K2. destruct (run c ops m1) as (m2, h2). exact K2.
Qed.
Theorem C59_delete_partial c P m h name p seed : laws c P -> history c P m h -> Forall (fun e => answered (fst e)) h -> account h (ToLower name) = Some (seed, p) ->
  ((exists m', step c m (OpDelete name p) = (m', Ret RDone)) <-> forall t, ~ In (t, ToLower name) (tokens h)).
Proof.
  intros L H An A. pose proof H as (id0 & ops & _ & _ & _ & E). destruct (history_winv _ _ _ _ L H) as (id1 & n & V & _). set (u := ToLower name) in *.
  assert (Kn : known m (tokens h)).
  { assert (Fo : Forall answered ops).
    { assert (X : forall ops m0, Forall (fun e : event => answered (fst e)) (snd (run c ops m0)) -> Forall answered ops).
      { clear. induction ops as [|o ops IH]; intros m0 F; [constructor|]. cbn [run] in F. destruct (step c m0 o) as (m1, r1). specialize (IH m1). destruct (run c ops m1) as (m2, h2). cbn [snd] in F, IH. inversion F; subst. constructor; [assumption|auto]. }
      apply (X ops (start id0)). rewrite E. exact An. }
    pose proof (known_run c ops (start id0) [] Fo) as X. rewrite E in X. apply X. intros id ss G. discriminate. }
  cbn [step]. fold u. rewrite (get_seed_user_right c P L _ _ _ _ _ _ _ _ V A). cbn [obind]. unfold Store_DeleteWallet.
  pose proof (i_files _ _ _ _ _ _ V u) as F. rewrite A in F. destruct (get bytes_eqb u (a_files m)) as [e|] eqn:G; [|destruct F]. rewrite (i_open _ _ _ _ _ _ V u). destruct (Nat.eqb_spec (sessions_of u (a_sessions m)) 0) as [Z|Z]; cbn [negb obind fails].
  - split; [|intros _; eexists; reflexivity]. intros _ t I0. destruct (i_tokens _ _ _ _ _ _ V t u I0) as (ss & Gs & <- & _). exact (no_session _ _ _ _ _ _ _ _ V Gs Z).
  - split; [intros (m' & X); discriminate|]. intros No. exfalso. unfold sessions_of in Z. destruct (filter _ _) as [|(id, ss) l] eqn:Fl; [apply Z; reflexivity|].
    assert (X : In (id, ss) (a_sessions m) /\ bytes_eqb (s_user ss) u = true) by (apply filter_In with (f := fun x => bytes_eqb (s_user (snd x)) u); rewrite Fl; left; reflexivity).
    destruct X as (X1 & X2). apply beqb_iff in X2. apply (in_get _ neqb_iff _ _ _ (i_nodup _ _ _ _ _ _ V)) in X1. destruct (Kn id ss X1) as (t & T & _). rewrite X2 in T. exact (No t T).
Qed.
(** A payment that comes to the listener of a user is received with the seed of that user or not at all. *)
Theorem C59_listener_partial c P m h u r : laws c P -> history c P m h -> snd (step c m (OpIncoming u)) = Ret r -> exists seed p, account h u = Some (seed, p) /\ r = RSeed seed.
Proof.
  intros L H. destruct (history_winv _ _ _ _ L H) as (id0 & n & V & _). cbn [step]. pose proof (i_listeners _ _ _ _ _ _ V u) as Li. destruct (get bytes_eqb u (a_listeners m)) as [(k, t)|]; [|discriminate].
  destruct Li as (_ & _ & _ & Li). destruct (get N.eqb (t_id t) (a_sessions m)) as [ss|] eqn:G.
  - destruct (Li ss eq_refl) as (<- & K). destruct (i_sessions _ _ _ _ _ _ V _ _ G) as (_ & p & A). pose proof (get_seed_key c (l_sha _ _ L) m _ ss _ [] G K) as X. rewrite app_nil_r in X. destruct t as (id, key). cbn [t_id t_key] in *. rewrite X. cbn. intros [= <-].
    exists (s_seed ss), p. split; [exact A|reflexivity].
  - unfold GetSeed. rewrite G. discriminate.
Qed.

(** * An example of the laws, and what goes wrong *)
Definition toy : crypto := mkCrypto (fun p _ _ => p) (fun x _ _ => x) (fun x _ _ => match x with [] => None | _ => Some x end)
  (fun _ k => firstn 32 (N.of_nat (List.length k) :: k ++ repeat 0 32)) (fun x => [fold_left N.add x 0 mod 256; 1; 2; 3]).
Definition short (p : bytes) : Prop := (List.length p <= 31)%nat.
Lemma toy_laws : laws toy short.
Proof.
  assert (Hl : forall k, List.length (firstn 32 (N.of_nat (List.length k) :: k ++ repeat 0 32)) = 32%nat).
  { intros k. rewrite firstn_length. cbn [List.length]. rewrite app_length, repeat_length. lia. }
  split; cbn [toy SHA_256 HMAC_SHA256 AES_Encrypt AES_Decrypt].
  - intros x. cbn. lia.
  - intros x k. apply Hl.
  - intros [|a x] k iv H; [contradiction|reflexivity].
  - intros seed p iv salt p' seed' Sp Sp'. unfold DecryptWalletSeed, EncryptWalletSeed. cbn [toy PBKDF HMAC_SHA256 AES_Encrypt AES_Decrypt e_iv e_salt e_bytes e_params].
    set (tag := fun k : bytes => firstn 32 (N.of_nat (List.length k) :: k ++ repeat 0 32)). assert (Ht : forall k, tag k = N.of_nat (List.length k) :: firstn 31 (k ++ repeat 0 32)) by reflexivity. fold (tag p). destruct (seed ++ tag p) as [|a l] eqn:E; [discriminate|]. rewrite <- E. clear a l E. rewrite app_length. unfold tag at 1 2 3 4. rewrite !Hl. fold (tag p).
    destruct (Nat.ltb_spec (List.length seed + 32) 32); [lia|]. replace (List.length seed + 32 - 32)%nat with (List.length seed) by lia. rewrite firstn_app, skipn_app, Nat.sub_diag, firstn_all, skipn_all. cbn [skipn app].
    fold (tag p'). destruct (bytes_eqb (tag p') (tag p)) eqn:Q; [|discriminate]. apply beqb_iff in Q. intros _. rewrite !Ht in Q. pose proof (f_equal (hd 0) Q) as Q1. pose proof (f_equal (@tl N) Q) as Q2. cbn [hd] in Q1. cbn [tl] in Q2. apply Nat2N.inj in Q1.
    unfold short in *. pose proof (f_equal (firstn (List.length p)) Q2) as Q3. rewrite !firstn_firstn, !Nat.min_l, !firstn_app in Q3 by lia. rewrite Q1, Nat.sub_diag, <- Q1, firstn_all, Q1, firstn_all in Q3. cbn [firstn] in Q3. rewrite !app_nil_r in Q3. exact Q3.
Qed.
Definition rnd (i : nat) : N := N.of_nat i * 7 mod 256.
Definition bob : bytes := chars "bob"%string.
Definition pw : bytes := chars "secret"%string.
Definition create (name : bytes) : op := OpCreate name pw 12 rnd rnd [] [].
Definition token (n : N) : SessionToken := mkToken n (GenerateRandomBytes 20 rnd).
Definition after (ops : list op) : manager := fst (run toy ops (start 5)).
Definition told (ops : list op) : list event := snd (run toy ops (start 5)).
Lemma toy_history ops : N.of_nat (List.length ops) < 2 ^ 64 -> Forall (uses short) ops -> history toy short (after ops) (told ops).
Proof. intros B F. exists 5, ops. repeat split; [exact B|exact F|]. unfold after, told. destruct (run toy ops (start 5)); reflexivity. Qed.
Ltac toy_history := apply toy_history; [reflexivity|repeat constructor; cbn; lia].

(** If the node does not answer, the log in fails but its session stays, and nobody has its token: the account cannot be deleted. *)
Theorem C59_failed_login_refuted : exists c P m h name p seed, laws c P /\ history c P m h /\
  account h (ToLower name) = Some (seed, p) /\ tokens h = [] /\ step c m (OpDelete name p) = (m, Throw).
Proof.
  set (ops := [create bob; OpLogout (token 5); OpLogin bob pw false rnd]). exists toy, short, (after ops), (told ops), bob, pw, (GenerateRandomBytes 16 rnd).
  split; [exact toy_laws|]. split; [toy_history|]. repeat split; vm_compute; reflexivity.
Qed.
(** The listener of a user who logged in twice stops receiving when the first session ends. *)
Theorem C59_listener_refuted : exists c P m h t u, laws c P /\ history c P m h /\ Forall (fun e => exists r, snd e = Ret r) h /\ In (t, u) (tokens h) /\
  step c m (OpIncoming u) = (m, Throw).
Proof.
  set (ops := [create bob; OpLogin bob pw true rnd; OpLogout (token 5)]). exists toy, short, (after ops), (told ops), (token 6), bob.
  split; [exact toy_laws|]. split; [toy_history|]. split; [|split; [vm_compute; left; reflexivity|vm_compute; reflexivity]].
  unfold told. assert (X : map snd (snd (run toy ops (start 5))) = [Ret (RToken (token 5) (Some (GenerateRandomBytes 16 rnd))); Ret (RToken (token 6) None); Ret RDone]) by (vm_compute; reflexivity).
  apply Forall_forall. intros e I0. apply (in_map snd) in I0. rewrite X in I0. destruct I0 as [<-|[<-|[<-|[]]]]; eexists; reflexivity.
Qed.
(** An account can be made under a name with which one cannot log in: with spaces around it, or with a dot before it. *)
Theorem C59_name_refuted : exists c P, laws c P /\ forall name, In name [chars " bob"%string; chars ".bob"%string] -> exists m r, step c (start 5) (create name) = (m, Ret r) /\
  history c P m [(create name, Ret r)] /\ forall rk, step c m (OpLogin name pw true rk) = (m, Throw).
Proof.
  exists toy, short. split; [exact toy_laws|]. intros name I0. assert (Sn : short pw) by (vm_compute; lia).
  exists (after [create name]), (RToken (token 5) (Some (GenerateRandomBytes 16 rnd))).
  assert (X : step toy (start 5) (create name) = (after [create name], Ret (RToken (token 5) (Some (GenerateRandomBytes 16 rnd))))) by (destruct I0 as [<-|[<-|[]]]; vm_compute; reflexivity).
  split; [exact X|]. split.
  - exists 5, [create name]. split; [reflexivity|]. split; [reflexivity|]. split; [repeat constructor; exact Sn|]. cbn [run]. rewrite X. reflexivity.
  - intros rk. cbn [step]. assert (Y : has_account (after [create name]) (ToLower name) = false) by (destruct I0 as [<-|[<-|[]]]; vm_compute; reflexivity). rewrite Y. reflexivity.
Qed.
(** The theorems above have instances: two users, a password changed, a wrong password tried. *)
Definition eve : bytes := chars "eve"%string.
Definition pw2 : bytes := chars "Secret"%string.
Definition story : list op := [create bob; create eve; OpChangePassword eve pw pw2 [1] [2]; OpLogin eve pw true rnd; OpLogin eve pw2 true rnd; OpLogout (token 5)].
Example C59_story : laws toy short /\ history toy short (after story) (told story) /\ Forall (fun e => answered (fst e)) (told story) /\
  account (told story) bob = Some (GenerateRandomBytes 16 rnd, pw) /\ account (told story) eve = Some (GenerateRandomBytes 16 rnd, pw2) /\ tokens (told story) = [(token 7, eve); (token 6, eve)] /\
  snd (step toy (after story) (OpDelete bob pw)) = Ret RDone /\ snd (step toy (after story) (OpDelete eve pw2)) = Throw /\
  snd (step toy (after story) (OpIncoming eve)) = Ret (RSeed (GenerateRandomBytes 16 rnd)).
Proof.
  split; [exact toy_laws|]. split; [toy_history|]. split; [|repeat split; vm_compute; reflexivity].
  assert (X : map fst (told story) = story) by reflexivity. apply Forall_forall. intros e I0. apply (in_map fst) in I0. rewrite X in I0. cbn in I0. repeat destruct I0 as [<-|I0]; [exact I..|destruct I0].
Qed.
Definition account_theorems := (C59_seed_round_trip, C59_password, C59_login_partial, C59_failure_changes_nothing, C59_token, C59_token_key, C59_short_key_refuted, C59_logout_key_refuted, C59_delete_partial, C59_listener_partial,
  C59_failed_login_refuted, C59_listener_refuted, C59_name_refuted, C59_story).
Print Assumptions account_theorems.
