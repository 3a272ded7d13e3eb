(** Proofs about accounts and sessions. *)
From Verif Require Import Base Bytes TextModel AccountModel AccountSpec.
Local Open Scope N_scope.

Section MapLaws.
Context {K V : Type} (eqb : K -> K -> bool) (E : forall x y, eqb x y = true <-> x = y).
Lemma eqb_same x : eqb x x = true. Proof. apply E. reflexivity. Qed.
Lemma eqb_diff x y : x <> y -> eqb x y = false. Proof. intros N. destruct (eqb x y) eqn:Q; [apply E in Q; contradiction|reflexivity]. Qed.
Lemma get_erase k j (l : list (K * V)) : get eqb k (erase eqb j l) = if eqb j k then None else get eqb k l.
Proof.
  unfold erase.   induction l as [|(a, v) l IH]; cbn; [destruct (eqb j k); reflexivity|]. destruct (eqb a j) eqn:Q; cbn.
  - rewrite IH. apply E in Q. subst a. destruct (eqb j k); reflexivity.
  - destruct (eqb a k) eqn:R; [|exact IH]. apply E in R. subst a. destruct (eqb j k) eqn:T; [|reflexivity]. apply E in T. subst j. rewrite eqb_same in Q. discriminate.
Qed.
Lemma get_put k j v (l : list (K * V)) : get eqb k (put eqb j v l) = if eqb j k then Some v else get eqb k l.
Proof. unfold put. cbn. destruct (eqb j k) eqn:Q; [reflexivity|]. rewrite get_erase, Q. reflexivity. Qed.
Lemma get_in k v (l : list (K * V)) : get eqb k l = Some v -> In (k, v) l.
Proof. induction l as [|(a, w) l IH]; [discriminate|]. cbn. destruct (eqb a k) eqn:Q; [intros [= ->]; apply E in Q; subst a; left; reflexivity|right; auto]. Qed.
Lemma erase_none k (l : list (K * V)) : get eqb k l = None -> erase eqb k l = l.
Proof. unfold erase. induction l as [|(a, v) l IH]; [reflexivity|]. cbn. destruct (eqb a k) eqn:Q; [discriminate|]. cbn. intros H. f_equal. exact (IH H). Qed.
Lemma in_get k v (l : list (K * V)) : NoDup (map fst l) -> In (k, v) l -> get eqb k l = Some v.
Proof.
  induction l as [|(a, w) l IH]; intros Nd I0; [destruct I0|]. cbn in Nd. apply NoDup_cons_iff in Nd. destruct Nd as (N1 & N2). cbn. destruct I0 as [[= -> ->]|I0]; [rewrite eqb_same; reflexivity|].
  destruct (eqb a k) eqn:Q; [|exact (IH N2 I0)]. apply E in Q. subst a. exfalso. apply N1. apply in_map_iff. exists (k, v). split; [reflexivity|exact I0].
Qed.
Lemma get_some_in k (l : list (K * V)) : In k (map fst l) <-> get eqb k l <> None.
Proof.
  induction l as [|(a, w) l IH]; [split; [intros []|intros H; destruct (H eq_refl)]|]. cbn. destruct (eqb a k) eqn:Q.
  - apply E in Q. subst a. split; [discriminate|left; reflexivity].
  - split; [intros [->|X]; [rewrite eqb_same in Q; discriminate|apply IH; exact X]|intros X; right; apply IH; exact X].
Qed.
Lemma nodup_erase k (l : list (K * V)) : NoDup (map fst l) -> NoDup (map fst (erase eqb k l)).
Proof.
  induction l as [|(a, w) l IH]; intros Nd; [constructor|]. cbn in *. apply NoDup_cons_iff in Nd. destruct Nd as (N1 & N2). destruct (eqb a k); cbn; [exact (IH N2)|].
  constructor; [|exact (IH N2)]. intros X. apply N1. apply in_map_iff in X. destruct X as (x & <- & X). apply filter_In in X. apply in_map. exact (proj1 X).
Qed.
Lemma nodup_put k v (l : list (K * V)) : NoDup (map fst l) -> NoDup (map fst (put eqb k v l)).
Proof. intros Nd. cbn. constructor; [|exact (nodup_erase k l Nd)]. intros X. apply get_some_in in X. apply X. rewrite get_erase, eqb_same. reflexivity. Qed.
End MapLaws.

Lemma neqb_iff x y : (x =? y) = true <-> x = y. Proof. apply N.eqb_eq. Qed.
Lemma beqb_iff x y : bytes_eqb x y = true <-> x = y. Proof. apply bytes_eqb_spec. Qed.

(** ** Exclusive or *)
Lemma xor_length a b : length (xor_bytes a b) = Nat.min (length a) (length b).
Proof. unfold xor_bytes. rewrite map_length, combine_length. reflexivity. Qed.
Lemma xor_twice : forall a b d, length a = length b -> xor_bytes (xor_bytes a b) (b ++ d) = a.
Proof.
  induction a as [|x a IH]; intros [|y b] d L; try discriminate; [reflexivity|]. injection L as L. unfold xor_bytes in *. cbn. f_equal; [|exact (IH b d L)].
  rewrite N.lxor_assoc, N.lxor_nilpotent, N.lxor_0_r. reflexivity.
Qed.
Lemma xor_same : forall a b k, length b = length a -> (length a <= length k)%nat -> xor_bytes (xor_bytes a b) k = a -> firstn (length a) k = b.
Proof.
  induction a as [|x a IH]; intros [|y b] k L1 L2; try discriminate; [reflexivity|]. destruct k as [|z k]; [cbn in L2; lia|]. injection L1 as L1. unfold xor_bytes in *. cbn. intros [= H1 H2]. f_equal.
  - apply (f_equal (N.lxor x)) in H1. rewrite N.lxor_nilpotent, <- !N.lxor_assoc, N.lxor_nilpotent, N.lxor_0_l in H1. symmetry in H1. rewrite ?N.lxor_0_l in H1. apply N.lxor_eq in H1 || (symmetry in H1; apply N.lxor_eq in H1). congruence.
  - apply IH; [exact L1|cbn in L2; lia|exact H2].
Qed.
Lemma xor_app k : forall a b, length a = length b -> xor_bytes a (b ++ k) = xor_bytes a b.
Proof. induction a as [|x a IH]; intros [|y b] L; try discriminate; [reflexivity|]. injection L as L. unfold xor_bytes in *. cbn. f_equal. exact (IH b L). Qed.
Lemma random_length n r : length (GenerateRandomBytes n r) = n.
Proof. unfold GenerateRandomBytes. rewrite map_length, seq_length. reflexivity. Qed.

Section P.
Variable c : crypto.
Hypothesis sha_length : forall x, (4 <= length (SHA_256 c x))%nat.
Lemma checksum_length s : length (seed_with_checksum c s) = (length s + 4)%nat.
Proof. unfold seed_with_checksum. rewrite app_length, firstn_length. specialize (sha_length s). lia. Qed.

(** A session is opened by its key, and by no other key of the length. *)
Definition key_of (ss : session) (key : bytes) : Prop := length key = (length (s_seed ss) + 4)%nat /\ s_encrypted ss = xor_bytes (seed_with_checksum c (s_seed ss)) key.
Lemma key_length ss key : key_of ss key -> length (s_encrypted ss) = (length (s_seed ss) + 4)%nat.
Proof. intros (L & ->). rewrite xor_length, checksum_length. lia. Qed.
Lemma seed_back s : firstn (length (seed_with_checksum c s) - 4) (seed_with_checksum c s) = s /\ skipn (length (seed_with_checksum c s) - 4) (seed_with_checksum c s) = firstn 4 (SHA_256 c s).
Proof.
  rewrite checksum_length. replace (length s + 4 - 4)%nat with (length s) by lia. unfold seed_with_checksum. rewrite firstn_app, skipn_app, Nat.sub_diag, firstn_all, skipn_all. cbn. rewrite app_nil_r. split; reflexivity.
Qed.
Lemma get_seed_key m id ss key more : get N.eqb id (a_sessions m) = Some ss -> key_of ss key -> GetSeed c m (mkToken id (key ++ more)) = Ret (s_seed ss).
Proof.
  intros G K. pose proof (key_length _ _ K) as L. destruct K as (L1 & Ee). unfold GetSeed. cbn [t_id t_key]. rewrite G, L, app_length, L1. destruct (Nat.ltb_spec (length (s_seed ss) + 4 + length more) (length (s_seed ss) + 4)); [lia|].
  rewrite Ee, xor_twice by (rewrite checksum_length; lia). destruct (seed_back (s_seed ss)) as (A & B). rewrite A, B, (proj2 (beqb_iff _ _) eq_refl). reflexivity.
Qed.
Lemma get_seed_only m id ss key key' : get N.eqb id (a_sessions m) = Some ss -> key_of ss key -> GetSeed c m (mkToken id key') = Ret (s_seed ss) -> firstn (length key) key' = key.
Proof.
  intros G K. pose proof (key_length _ _ K) as L. destruct K as (L1 & Ee). unfold GetSeed. cbn [t_id t_key]. rewrite G, L. destruct (Nat.ltb_spec (length key') (length (s_seed ss) + 4)) as [|Lk]; [discriminate|].
  destruct (bytes_eqb _ _) eqn:Q; [|discriminate]. apply beqb_iff in Q. intros [= F]. rewrite F in Q. assert (X : xor_bytes (s_encrypted ss) key' = seed_with_checksum c (s_seed ss)).
  { rewrite <- (firstn_skipn (length (xor_bytes (s_encrypted ss) key') - 4) (xor_bytes (s_encrypted ss) key')). rewrite F, Q. reflexivity. }
  rewrite Ee in X. rewrite L1, <- checksum_length. apply xor_same; [rewrite checksum_length; exact L1|rewrite checksum_length; exact Lk|exact X].
Qed.
Lemma get_seed_short m id ss key key' : get N.eqb id (a_sessions m) = Some ss -> key_of ss key -> (length key' < length key)%nat -> GetSeed c m (mkToken id key') = Fault.
Proof.
  intros G K L0. pose proof (key_length _ _ K) as L. destruct K as (L1 & Ee). unfold GetSeed. cbn [t_id t_key]. rewrite G, L. destruct (Nat.ltb_spec (length key') (length (s_seed ss) + 4)); [reflexivity|lia].
Qed.

(** ** The invariant *)
Definition sessions_of (u : bytes) (l : list (N * session)) : nat := length (filter (fun x => bytes_eqb (s_user (snd x)) u) l).
Record inv (id0 : N) (n : N) (m : manager) (acc : bytes -> option (bytes * bytes)) (toks : list (SessionToken * bytes)) : Prop := mkInv {
  i_files : forall u, match acc u, get bytes_eqb u (a_files m) with
    | Some (seed, p), Some e => exists iv salt, e = EncryptWalletSeed c seed p iv salt
    | None, None => True | _, _ => False end;
  i_sessions : forall id ss, get N.eqb id (a_sessions m) = Some ss -> (exists key, key_of ss key) /\ exists p, acc (s_user ss) = Some (s_seed ss, p);
  i_tokens : forall t u, In (t, u) toks -> exists ss, get N.eqb (t_id t) (a_sessions m) = Some ss /\ s_user ss = u /\ key_of ss (t_key t);
  i_ids : forall id, get N.eqb id (a_sessions m) <> None -> exists k, k < n /\ id = (id0 + k) mod W64;
  i_next : a_next m = (id0 + n) mod W64;
  i_nodup : NoDup (map fst (a_sessions m));
  i_listeners : forall u, match get bytes_eqb u (a_listeners m) with
    | Some (r, t) => r = N.of_nat (sessions_of u (a_sessions m)) /\ 0 < r /\ (exists k, k < n /\ t_id t = (id0 + k) mod W64) /\
        forall ss, get N.eqb (t_id t) (a_sessions m) = Some ss -> s_user ss = u /\ key_of ss (t_key t)
    | None => sessions_of u (a_sessions m) = 0%nat end;
  i_open : forall u, existsb (bytes_eqb u) (a_open m) = negb (sessions_of u (a_sessions m) =? 0)%nat }.

Lemma inv_start id0 : id0 < W64 -> inv id0 0 (start id0) (fun _ => None) [].
Proof.
  intros H. split; cbn; try (intros; discriminate); try (intros; exact I); try (intros; contradiction); try (intros; reflexivity); [|constructor]. rewrite N.add_0_r, N.mod_small by exact H. reflexivity.
Qed.
Lemma inv_ext id0 n m acc acc' toks toks' : (forall u, acc' u = acc u) -> (forall t, In t toks' -> In t toks) -> inv id0 n m acc toks -> inv id0 n m acc' toks'.
Proof.
  intros X Y [A1 A2 A3 A4 A5 A6 A7 A8]. split; try assumption; [intros u; rewrite X; apply A1|intros id ss G; rewrite X; apply A2 with (1 := G)|intros t u I0; apply A3; apply Y; exact I0].
Qed.
Definition upd (acc : bytes -> option (bytes * bytes)) (u : bytes) (v : option (bytes * bytes)) : bytes -> option (bytes * bytes) := fun x => if bytes_eqb u x then v else acc x.
Definition with_files (m : manager) f := mkMgr f (a_open m) (a_sessions m) (a_next m) (a_listeners m).
Lemma no_session id0 n m acc toks id ss : inv id0 n m acc toks -> get N.eqb id (a_sessions m) = Some ss -> sessions_of (s_user ss) (a_sessions m) <> 0%nat.
Proof.
  intros _ G. apply (get_in _ neqb_iff) in G. unfold sessions_of. destruct (filter _ _) eqn:F; [|discriminate]. exfalso. assert (In (id, ss) []) as []. rewrite <- F. apply filter_In. split; [exact G|apply bytes_eqb_refl].
Qed.
Lemma inv_set id0 n m acc toks u s p iv salt : inv id0 n m acc toks -> (forall q, acc u <> None -> acc u = Some q -> fst q = s) ->
  inv id0 n (with_files m (put bytes_eqb u (EncryptWalletSeed c s p iv salt) (a_files m))) (upd acc u (Some (s, p))) toks.
Proof.
  intros V Q. pose proof V as [A1 A2 A3 A4 A5 A6 A7 A8]. split; cbn [with_files a_files a_open a_sessions a_next a_listeners]; try assumption.
  - intros x. unfold upd. rewrite (get_put _ beqb_iff). destruct (bytes_eqb u x); [exists iv, salt; reflexivity|apply A1].
  - intros id ss G. destruct (A2 id ss G) as (B1 & q & B2). split; [exact B1|]. unfold upd. destruct (bytes_eqb u (s_user ss)) eqn:T; [|exists q; exact B2].
    apply beqb_iff in T. subst u. rewrite B2 in Q. rewrite <- (Q (s_seed ss, q)) by congruence. exists p. reflexivity.
Qed.
Lemma inv_del id0 n m acc toks u : inv id0 n m acc toks -> existsb (bytes_eqb u) (a_open m) = false ->
  inv id0 n (with_files m (erase bytes_eqb u (a_files m))) (upd acc u None) toks.
Proof.
  intros V O. pose proof V as [A1 A2 A3 A4 A5 A6 A7 A8]. split; cbn [with_files a_files a_open a_sessions a_next a_listeners]; try assumption.
  - intros x. unfold upd. rewrite (get_erase _ beqb_iff). destruct (bytes_eqb u x); [exact I|apply A1].
  - intros id ss G. destruct (A2 id ss G) as (B1 & q & B2). split; [exact B1|]. unfold upd. destruct (bytes_eqb u (s_user ss)) eqn:T; [|exists q; exact B2].
    apply beqb_iff in T. subst u. rewrite A8 in O. apply negb_false_iff, Nat.eqb_eq in O. destruct (no_session _ _ _ _ _ _ _ V G O).
Qed.
Lemma open_twice m u s r : Login_seed c (OpenWallet m u) u s r = Login_seed c m u s r.
Proof.
  assert (X : OpenWallet (OpenWallet m u) u = OpenWallet m u).
  { unfold OpenWallet at 2 3. destruct (existsb (bytes_eqb u) (a_open m)) eqn:O; unfold OpenWallet; [rewrite O; reflexivity|]. cbn. rewrite bytes_eqb_refl. reflexivity. }
  unfold Login_seed. rewrite X. assert (Y : a_next (OpenWallet m u) = a_next m) by (unfold OpenWallet; destruct (existsb _ _); reflexivity). rewrite !Y. reflexivity.
Qed.
Lemma fresh_id id0 n m acc toks : inv id0 n m acc toks -> n < W64 -> get N.eqb (a_next m) (a_sessions m) = None.
Proof.
  intros V L. destruct (get N.eqb (a_next m) (a_sessions m)) eqn:G; [|reflexivity]. exfalso. destruct (i_ids _ _ _ _ _ V (a_next m)) as (k & K1 & K2); [congruence|].
  rewrite (i_next _ _ _ _ _ V) in K2. assert (W : W64 <> 0) by discriminate. pose proof (N.div_mod' (id0 + n) W64) as D1. pose proof (N.div_mod' (id0 + k) W64) as D2. rewrite K2 in D1. nia.
Qed.
Lemma sessions_put u id ss l : get N.eqb id l = None -> sessions_of u (put N.eqb id ss l) = ((if bytes_eqb (s_user ss) u then 1 else 0) + sessions_of u l)%nat.
Proof. intros G. unfold sessions_of, put. rewrite erase_none by exact G. cbn. destruct (bytes_eqb (s_user ss) u); reflexivity. Qed.
Lemma sessions_erase u id ss l : NoDup (map fst l) -> get N.eqb id l = Some ss -> sessions_of u l = ((if bytes_eqb (s_user ss) u then 1 else 0) + sessions_of u (erase N.eqb id l))%nat.
Proof.
  unfold sessions_of. induction l as [|(a, x) l IH]; intros Nd G; [discriminate|]. cbn in Nd. apply NoDup_cons_iff in Nd. destruct Nd as (N1 & N2). cbn in G. unfold erase in *. cbn. destruct (N.eqb_spec a id) as [->|Ne].
  - injection G as ->. cbn [negb]. assert (X : filter (fun e : N * session => negb (fst e =? id)) l = l).
    { apply (erase_none N.eqb). destruct (get N.eqb id l) eqn:G; [|reflexivity]. exfalso. apply N1. apply (get_some_in _ neqb_iff). congruence. }
    rewrite X. destruct (bytes_eqb (s_user ss) u); reflexivity.
  - cbn [negb filter snd]. specialize (IH N2 G). destruct (bytes_eqb (s_user x) u); cbn [length]; rewrite IH; lia.
Qed.
Lemma inv_login id0 n m acc toks u s p r : inv id0 n m acc toks -> n < W64 -> acc u = Some (s, p) ->
  let '(m', t) := Login_seed c m u s r in inv id0 (n + 1) m' acc ((t, u) :: toks).
Proof.
  intros V L Ac. pose proof (fresh_id _ _ _ _ _ V L) as Fr. pose proof V as [A1 A2 A3 A4 A5 A6 A7 A8]. unfold Login_seed.
  set (key := GenerateRandomBytes (length (seed_with_checksum c s)) r). set (ss := mkSession u s (xor_bytes (seed_with_checksum c s) key)).
  assert (Ey : forall m0, a_files (OpenWallet m0 u) = a_files m0 /\ a_sessions (OpenWallet m0 u) = a_sessions m0 /\ a_next (OpenWallet m0 u) = a_next m0 /\ a_listeners (OpenWallet m0 u) = a_listeners m0)
    by (intros m0; unfold OpenWallet; destruct (existsb _ _); auto).
  destruct (Ey m) as (E1 & E2 & E3 & E4). assert (K : key_of ss key) by (split; [unfold key; rewrite random_length, checksum_length; reflexivity|reflexivity]).
  split; cbn [a_files a_open a_sessions a_next a_listeners]; rewrite ?E1, ?E2, ?E3, ?E4.
  - exact A1.
  - intros id x G. rewrite (get_put _ neqb_iff) in G. destruct (a_next m =? id); [|exact (A2 id x G)]. injection G as <-. split; [exists key; exact K|exists p; exact Ac].
  - intros t x [[= <- <-]|I0]; [exists ss; cbn [t_id t_key]; rewrite (get_put _ neqb_iff), N.eqb_refl; auto|]. destruct (A3 t x I0) as (y & Y1 & Y2). exists y. split; [|exact Y2].
    rewrite (get_put _ neqb_iff). destruct (N.eqb_spec (a_next m) (t_id t)) as [Q|]; [|exact Y1]. rewrite <- Q, Fr in Y1. discriminate.
  - intros id G. rewrite (get_put _ neqb_iff) in G. destruct (N.eqb_spec (a_next m) id) as [Q|]; [exists n; split; [lia|rewrite <- Q; exact A5]|]. destruct (A4 id G) as (k & K1 & K2). exists k. split; [lia|exact K2].
  - rewrite A5. unfold add64. rewrite N.add_mod_idemp_l by discriminate. f_equal. lia.
  - apply (nodup_put _ neqb_iff). exact A6.
  - intros x. rewrite (sessions_put x (a_next m) ss _ Fr). cbn [s_user ss]. unfold StartListener. specialize (A7 x) as A7x. specialize (A7 u) as A7u.
    assert (New : forall z, get N.eqb (a_next m) (put N.eqb (a_next m) ss (a_sessions m)) = Some z -> z = ss) by (intros z; rewrite (get_put _ neqb_iff), N.eqb_refl; congruence).
    assert (Old : forall t z, (exists k, k < n /\ t_id t = (id0 + k) mod W64) -> get N.eqb (t_id t) (put N.eqb (a_next m) ss (a_sessions m)) = Some z -> get N.eqb (t_id t) (a_sessions m) = Some z).
    { intros t z (k & K1 & K2) G. rewrite (get_put _ neqb_iff) in G. destruct (N.eqb_spec (a_next m) (t_id t)) as [Q|]; [|exact G]. exfalso. rewrite K2, A5 in Q.
      pose proof (N.div_mod' (id0 + n) W64) as D1. pose proof (N.div_mod' (id0 + k) W64) as D2. rewrite Q in D1. nia. }
    destruct (get bytes_eqb u (a_listeners m)) as [(r0, t0)|] eqn:Gu; rewrite (get_put _ beqb_iff); destruct (bytes_eqb u x) eqn:T.
    + apply beqb_iff in T. subst x. destruct A7u as (B1 & B2 & (k & B3 & B3') & B4). split; [lia|]. split; [lia|]. split; [exists k; split; [lia|exact B3']|]. intros z G. apply B4. apply (Old t0 z); [exists k; auto|exact G].
    + destruct (get bytes_eqb x (a_listeners m)) as [(r1, t1)|] eqn:Gx; [|exact A7x]. destruct A7x as (B1 & B2 & (k & B3 & B3') & B4). split; [exact B1|]. split; [exact B2|]. split; [exists k; split; [lia|exact B3']|]. intros z G. apply B4. apply (Old t1 z); [exists k; auto|exact G].
    + apply beqb_iff in T. subst x. rewrite A7u. split; [reflexivity|]. split; [lia|]. cbn [t_id t_key]. split; [exists n; split; [lia|exact A5]|]. intros z G. rewrite (New z G). split; [reflexivity|exact K].
    + destruct (get bytes_eqb x (a_listeners m)) as [(r1, t1)|] eqn:Gx; [|exact A7x]. destruct A7x as (B1 & B2 & (k & B3 & B3') & B4). split; [exact B1|]. split; [exact B2|]. split; [exists k; split; [lia|exact B3']|]. intros z G. apply B4. apply (Old t1 z); [exists k; auto|exact G].
  - intros x. rewrite (sessions_put x (a_next m) ss _ Fr). cbn [s_user ss]. specialize (A8 x) as A8x. specialize (A8 u) as A8u. unfold OpenWallet. destruct (existsb (bytes_eqb u) (a_open m)) eqn:O.
    + destruct (bytes_eqb u x) eqn:T; [apply beqb_iff in T; subst x; rewrite O; reflexivity|exact A8x].
    + cbn [a_open existsb]. rewrite A8x. destruct (bytes_eqb u x) eqn:T; [apply beqb_iff in T; subst x; rewrite bytes_eqb_refl; reflexivity|].
      replace (bytes_eqb x u) with false; [reflexivity|]. symmetry. apply bytes_eqb_false. intros ->. rewrite bytes_eqb_refl in T. discriminate.
Qed.
Lemma inv_logout id0 n m acc toks t : inv id0 n m acc toks -> inv id0 n (Logout m t) acc (filter (fun x => negb (t_id (fst x) =? t_id t)) toks).
Proof.
  intros V. pose proof V as [A1 A2 A3 A4 A5 A6 A7 A8]. unfold Logout. destruct (get N.eqb (t_id t) (a_sessions m)) as [ss|] eqn:G.
  2: { apply (inv_ext id0 n m acc acc toks); [reflexivity| |exact V]. intros x X. apply filter_In in X. exact (proj1 X). }
  cbn [a_listeners]. set (u := s_user ss) in *. pose proof (A7 u) as A7u. pose proof (no_session _ _ _ _ _ _ _ V G) as Pos. fold u in Pos.
  pose proof (fun x => sessions_erase x (t_id t) ss (a_sessions m) A6 G) as Cnt. fold u in Cnt.
  destruct (get bytes_eqb u (a_listeners m)) as [(r, t0)|] eqn:Gl; [|congruence]. destruct A7u as (B1 & B2 & B3 & B4).
  assert (Er : forall id z, get N.eqb id (erase N.eqb (t_id t) (a_sessions m)) = Some z -> get N.eqb id (a_sessions m) = Some z /\ id <> t_id t).
  { intros id z H. rewrite (get_erase _ neqb_iff) in H. destruct (N.eqb_spec (t_id t) id); [discriminate|]. split; [exact H|congruence]. }
  assert (Common : forall files op ls, files = a_files m ->
    (forall x, match get bytes_eqb x ls with
      | Some (r, t1) => r = N.of_nat (sessions_of x (erase N.eqb (t_id t) (a_sessions m))) /\ 0 < r /\ exists r', get bytes_eqb x (a_listeners m) = Some (r', t1)
      | None => sessions_of x (erase N.eqb (t_id t) (a_sessions m)) = 0%nat end) ->
    (forall x, existsb (bytes_eqb x) op = negb (sessions_of x (erase N.eqb (t_id t) (a_sessions m)) =? 0)%nat) ->
    inv id0 n (mkMgr files op (erase N.eqb (t_id t) (a_sessions m)) (a_next m) ls) acc (filter (fun x => negb (t_id (fst x) =? t_id t)) toks)).
  { intros files op ls -> Ls Op. split; cbn [a_files a_open a_sessions a_next a_listeners]; try assumption.
    - intros id z H. apply (A2 id z). exact (proj1 (Er id z H)).
    - intros t1 x I0. apply filter_In in I0. destruct I0 as (I0 & Ne). destruct (A3 t1 x I0) as (z & Z1 & Z2). exists z. split; [|exact Z2]. rewrite (get_erase _ neqb_iff). cbn in Ne. rewrite N.eqb_sym. destruct (t_id t1 =? t_id t); [discriminate|exact Z1].
    - intros id H. apply A4. intros E. apply H. rewrite (get_erase _ neqb_iff), E. destruct (_ =? _); reflexivity.
    - apply nodup_erase. exact A6.
    - intros x. specialize (Ls x). specialize (A7 x). destruct (get bytes_eqb x ls) as [(r1, t1)|]; [|exact Ls]. destruct Ls as (L1 & L2 & r' & L3). rewrite L3 in A7. destruct A7 as (_ & _ & C3 & C4).
      split; [exact L1|]. split; [exact L2|]. split; [exact C3|]. intros z H. apply C4. exact (proj1 (Er _ z H)). }
  unfold StopListener. rewrite Gl. assert (Cu := Cnt u). rewrite bytes_eqb_refl in Cu. destruct (N.eqb_spec (r - 1) 0) as [Z|Z].
  - rewrite (get_erase _ beqb_iff), bytes_eqb_refl. unfold CloseWallet. cbn [a_files a_open a_sessions a_next a_listeners]. apply Common; [reflexivity| |].
    + intros x. rewrite (get_erase _ beqb_iff). specialize (Cnt x). destruct (bytes_eqb u x) eqn:T; [apply beqb_iff in T; subst x; lia|]. specialize (A7 x). destruct (get bytes_eqb x (a_listeners m)) as [(r1, t1)|]; [|lia].
      destruct A7 as (C1 & C2 & _). split; [lia|]. split; [lia|]. exists r1. reflexivity.
    + intros x. specialize (Cnt x). specialize (A8 x). destruct (bytes_eqb u x) eqn:T.
      * apply beqb_iff in T. subst x. replace (sessions_of u (erase N.eqb (t_id t) (a_sessions m))) with 0%nat by lia. cbn. apply not_true_is_false. intros H. apply existsb_exists in H. destruct H as (y & Y1 & Y2). apply beqb_iff in Y2. subst y.
        apply filter_In in Y1. rewrite bytes_eqb_refl in Y1. destruct Y1. discriminate.
      * cbn in Cnt. rewrite Cnt in A8. rewrite <- A8. apply eq_true_iff_eq. rewrite !existsb_exists. split; intros (y & Y1 & Y2); exists y; apply beqb_iff in Y2 as Y3; subst y; [apply filter_In in Y1; tauto|]. split; [|exact Y2].
        apply filter_In. split; [exact Y1|]. apply negb_true_iff, bytes_eqb_false. intros ->. rewrite bytes_eqb_refl in T. discriminate.
  - rewrite (get_put _ beqb_iff), bytes_eqb_refl. cbn [a_files a_open a_sessions a_next a_listeners]. apply Common; [reflexivity| |].
    + intros x. rewrite (get_put _ beqb_iff). specialize (Cnt x). destruct (bytes_eqb u x) eqn:T; [apply beqb_iff in T; subst x; split; [lia|split; [lia|exists r; exact Gl]]|]. specialize (A7 x). destruct (get bytes_eqb x (a_listeners m)) as [(r1, t1)|]; [|lia].
      destruct A7 as (C1 & C2 & _). split; [lia|]. split; [lia|]. exists r1. reflexivity.
    + intros x. specialize (Cnt x). specialize (A8 x). rewrite A8. f_equal. destruct (bytes_eqb u x) eqn:T; [|rewrite Cnt; reflexivity]. apply beqb_iff in T. subst x.
      destruct (Nat.eqb_spec (sessions_of u (a_sessions m)) 0), (Nat.eqb_spec (sessions_of u (erase N.eqb (t_id t) (a_sessions m))) 0); try reflexivity; lia.
Qed.
End P.

Section H.
Variables (c : crypto) (P : bytes -> Prop).
Hypothesis L : laws c P.
Lemma decrypt_right s p iv salt : DecryptWalletSeed c (EncryptWalletSeed c s p iv salt) p = Ret s.
Proof.
  unfold DecryptWalletSeed, EncryptWalletSeed. cbn [e_iv e_salt e_bytes e_params]. set (k := PBKDF c p salt (32768, 8, 1)). pose proof (l_hmac _ _ L s k) as Lh.
  rewrite (l_aes _ _ L) by (intros E; apply (f_equal (@length N)) in E; rewrite app_length, Lh in E; cbn in E; lia). rewrite app_length, Lh. destruct (Nat.ltb_spec (length s + 32) 32); [lia|].
  replace (length s + 32 - 32)%nat with (length s) by lia. rewrite firstn_app, skipn_app, Nat.sub_diag, firstn_all, skipn_all. cbn [firstn skipn app]. rewrite app_nil_r, bytes_eqb_refl. reflexivity.
Qed.
Definition winv id0 n m acc toks : Prop := inv c id0 n m acc toks /\ forall u s p, acc u = Some (s, p) -> P p.
Lemma get_seed_user id0 n m acc toks u p s : winv id0 n m acc toks -> P p -> GetSeed_user c m u p = Ret s -> acc u = Some (s, p).
Proof.
  intros (V & W) Hp. unfold GetSeed_user, LoadWalletSeed. pose proof (i_files _ _ _ _ _ _ V u) as F. destruct (get bytes_eqb u (a_files m)) as [e|]; cbn [obind]; [|discriminate].
  destruct (acc u) as [(s0, p0)|] eqn:A; [|destruct F]. destruct F as (iv & salt & ->). intros D. assert (p = p0) as -> by (apply (l_forge _ _ L) with (1 := W u s0 p0 A) (2 := Hp) (3 := D)).
  rewrite decrypt_right in D. congruence.
Qed.
Lemma get_seed_user_right id0 n m acc toks u p s : inv c id0 n m acc toks -> acc u = Some (s, p) -> GetSeed_user c m u p = Ret s.
Proof.
  intros V A. unfold GetSeed_user, LoadWalletSeed. pose proof (i_files _ _ _ _ _ _ V u) as F. rewrite A in F. destruct (get bytes_eqb u (a_files m)) as [e|]; [|destruct F]. destruct F as (iv & salt & ->). cbn [obind]. apply decrypt_right.
Qed.
Lemma winv_ext id0 n m acc acc' toks toks' : (forall u, acc' u = acc u) -> (forall t, In t toks' -> In t toks) -> winv id0 n m acc toks -> winv id0 n m acc' toks'.
Proof. intros X Y (V & W). split; [exact (inv_ext _ _ _ _ _ _ _ _ X Y V)|]. intros u s p E. rewrite X in E. exact (W u s p E). Qed.
Lemma winv_create id0 n m acc toks u s p iv salt r m1 : winv id0 n m acc toks -> n < W64 -> P p -> CreateWallet m u (EncryptWalletSeed c s p iv salt) = Ret m1 ->
  let '(m', t) := Login_seed c m1 u s r in winv id0 (n + 1) m' (upd acc u (Some (s, p))) ((t, u) :: toks).
Proof.
  intros (V & W) Hn Hp. unfold CreateWallet. destruct (get bytes_eqb u (a_files m)) as [e|] eqn:G; [discriminate|]. intros [= <-]. rewrite open_twice. fold (with_files m (put bytes_eqb u (EncryptWalletSeed c s p iv salt) (a_files m))).
  assert (A : acc u = None) by (pose proof (i_files _ _ _ _ _ _ V u) as F; rewrite G in F; destruct (acc u) as [[]|]; [destruct F|reflexivity]).
  assert (V1 : inv c id0 n (with_files m (put bytes_eqb u (EncryptWalletSeed c s p iv salt) (a_files m))) (upd acc u (Some (s, p))) toks) by (apply inv_set; [exact V|congruence]).
  pose proof (inv_login c (l_sha _ _ L) id0 n _ _ toks u s p r V1 Hn) as X. unfold upd at 1 in X. rewrite bytes_eqb_refl in X. specialize (X eq_refl).
  destruct (Login_seed c _ u s r) as (m', t). split; [exact X|]. intros x s' p'. unfold upd. destruct (bytes_eqb u x); [intros [= <- <-]; exact Hp|apply W].
Qed.
Lemma step_inv id0 n m acc toks o : winv id0 n m acc toks -> n < W64 -> uses P o ->
  exists n', n' <= n + 1 /\ winv id0 n' (fst (step c m o)) (fun u => account_step u (acc u) (o, snd (step c m o))) (tokens_step toks (o, snd (step c m o))).
Proof.
  intros V Hn Us. pose proof V as (V0 & W).
  assert (Same : forall acc' toks', (forall u, acc' u = acc u) -> (forall t, In t toks' -> In t toks) -> exists n', n' <= n + 1 /\ winv id0 n' m acc' toks') by (intros acc' toks' X Y; exists n; split; [lia|exact (winv_ext _ _ _ _ _ _ _ X Y V)]).
  destruct o as [name p nw rs rk iv salt|name p en rk iv salt|name p ok rk|t|name p|name p new iv salt|name p|t|name]; cbn [step] in *.
  - destruct (_ || _ || _ || _ || _)%bool; [apply Same; auto|]. set (u := ToLower (Trim name)). set (s := GenerateRandomBytes _ rs). cbn [uses] in Us.
    destruct (CreateWallet m u (EncryptWalletSeed c s p iv salt)) as [m1| |] eqn:E; cbn [obind fails fst snd]; [|apply Same; auto..].
    pose proof (winv_create _ _ _ _ _ _ _ _ _ _ rk _ V Hn Us E) as X. destruct (Login_seed c m1 u s rk) as (m2, t). cbn [fails fst snd]. exists (n + 1). split; [lia|]. cbn. fold u. exact X.
  - destruct en as [s|]; [|apply Same; auto]. destruct (_ || _)%bool; [apply Same; auto|]. set (u := ToLower (Trim name)). cbn [uses] in Us.
    destruct (CreateWallet m u (EncryptWalletSeed c s p iv salt)) as [m1| |] eqn:E; cbn [obind fails fst snd]; [|apply Same; auto..].
    pose proof (winv_create _ _ _ _ _ _ _ _ _ _ rk _ V Hn Us E) as X. destruct (Login_seed c m1 u s rk) as (m2, t). cbn [fails fst snd]. exists (n + 1). split; [lia|]. cbn. fold u. exact X.
  - destruct (negb _); [apply Same; auto|]. unfold Session_Login. set (u := ToLower name). cbn [uses] in Us.
    assert (Q : (let* e := LoadWalletSeed m u in let* seed := DecryptWalletSeed c e p in Ret (Login_seed c (OpenWallet m u) u seed rk)) = (let* seed := GetSeed_user c m u p in Ret (Login_seed c m u seed rk))).
    { unfold GetSeed_user. destruct (LoadWalletSeed m u) as [e| |]; cbn [obind]; try reflexivity. destruct (DecryptWalletSeed c e p); cbn [obind]; try reflexivity. rewrite open_twice. reflexivity. }
    rewrite Q. destruct (GetSeed_user c m u p) as [s| |] eqn:E; cbn [obind]; [|apply Same; auto..]. pose proof (get_seed_user _ _ _ _ _ _ _ _ V Us E) as A.
    pose proof (inv_login c (l_sha _ _ L) id0 n m acc toks u s p rk V0 Hn A) as X. destruct (Login_seed c m u s rk) as (m', t). cbn [fst snd]. exists (n + 1). split; [lia|].
    apply (winv_ext id0 (n + 1) m' acc _ ((t, u) :: toks)); [destruct ok; reflexivity|destruct ok; cbn; [auto|intros t0 H; right; exact H]|split; [exact X|exact W]].
  - exists n. split; [lia|]. cbn [fst snd]. split; [apply inv_logout; [exact (l_sha _ _ L)|exact V0]|exact W].
  - cbn [uses] in Us. set (u := ToLower name). destruct (GetSeed_user c m u p) as [s| |] eqn:E; cbn [obind fails fst snd]; [|apply Same; auto..].
    unfold Store_DeleteWallet. destruct (existsb (bytes_eqb u) (a_open m)) eqn:O; cbn [obind fails fst snd]; [apply Same; auto|]. destruct (get bytes_eqb u (a_files m)) eqn:G; cbn [obind fails fst snd]; [|apply Same; auto].
    exists n. split; [lia|]. cbn. fold u. fold (with_files m (erase bytes_eqb u (a_files m))). split; [exact (inv_del c id0 n m acc toks u V0 O)|]. intros x s' p'. destruct (bytes_eqb u x); [discriminate|apply W].
  - cbn [uses] in Us. set (u := ToLower name). destruct (GetSeed_user c m u p) as [s| |] eqn:E; cbn [obind fails fst snd]; [|apply Same; auto..].
    pose proof (get_seed_user _ _ _ _ _ _ _ _ V (proj1 Us) E) as A. exists n. split; [lia|]. cbn. fold u. fold (with_files m (put bytes_eqb u (EncryptWalletSeed c s new iv salt) (a_files m))).
    apply (winv_ext id0 n _ (upd acc u (Some (s, new))) _ toks); [|auto|].
    + intros x. unfold upd. destruct (bytes_eqb u x) eqn:T; [|reflexivity]. apply beqb_iff in T. subst x. rewrite A. reflexivity.
    + split; [apply inv_set; [exact V0|]; intros q _ Eq; rewrite A in Eq; injection Eq as <-; reflexivity|]. intros x s' p'. unfold upd. destruct (bytes_eqb u x); [intros [= <- <-]; exact (proj2 Us)|apply W].
  - destruct (GetSeed_user c m (ToLower name) p); cbn [obind fails fst snd]; apply Same; auto.
  - destruct (GetSeed c m t); cbn [obind fails fst snd]; apply Same; auto.
  - destruct (get bytes_eqb name (a_listeners m)) as [(r, t)|]; [|apply Same; auto]. destruct (GetSeed c m t); cbn [obind fails fst snd]; apply Same; auto.
Qed.
Lemma run_inv ops : forall id0 n m acc toks, winv id0 n m acc toks -> n + N.of_nat (length ops) < W64 -> Forall (uses P) ops ->
  exists n', n' <= n + N.of_nat (length ops) /\ winv id0 n' (fst (run c ops m)) (fun u => fold_left (account_step u) (snd (run c ops m)) (acc u)) (fold_left tokens_step (snd (run c ops m)) toks).
Proof.
  induction ops as [|o ops IH]; intros id0 n m acc toks V Hn F; [exists n; split; [lia|exact V]|]. inversion F as [|? ? F1 F2]; subst. cbn [run length] in *.
  destruct (step_inv id0 n m acc toks o V ltac:(lia) F1) as (n1 & N1 & V1). destruct (step c m o) as (m1, r1). cbn [fst snd] in V1.
  destruct (IH id0 n1 m1 _ _ V1 ltac:(lia) F2) as (n2 & N2 & V2). destruct (run c ops m1) as (m2, h2). cbn [fst snd] in *. exists n2. split; [lia|exact V2].
Qed.
Lemma history_inv ops id0 : id0 < W64 -> N.of_nat (length ops) < W64 -> Forall (uses P) ops ->
  exists n, n <= N.of_nat (length ops) /\ winv id0 n (fst (run c ops (start id0))) (account (snd (run c ops (start id0)))) (tokens (snd (run c ops (start id0)))).
Proof.
  intros H0 Hn F. destruct (run_inv ops id0 0 (start id0) (fun _ => None) []) as (n & N1 & V); [split; [apply inv_start; exact H0|discriminate]|lia|exact F|]. exists n. split; [lia|exact V].
Qed.
End H.
