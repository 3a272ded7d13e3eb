(** Valid blocks are accepted: proofs. *)
From Verif Require Import Base Bytes MMRIndexModel MMRHashModel MMRHashSpec MMRHashProofs BitmapModel BitmapProofs CodecModel ConsensusModel CuckooModel CacheModel
  HeaderModel HeaderSpec HeaderProofs HeaderInv ValidationModel UtxoModel UtxoSpec UtxoProofs UtxoRewind UtxoRoots BlockModel BlockSpec BlockHeaders BlockProofs BlockNode AcceptSpec.
Local Open Scope N_scope.

(** ** The bits *)
Lemma bits_byte_lt f : bits_byte f < 256.
Proof. unfold bits_byte. cbn [seq fold_left]. destruct (f 0%nat), (f 1%nat), (f 2%nat), (f 3%nat), (f 4%nat), (f 5%nat), (f 6%nat), (f 7%nat); reflexivity. Qed.
Lemma bits_byte_bit f (j : nat) : (j < 8)%nat -> N.testbit (bits_byte f) (7 - N.of_nat j) = f j.
Proof.
  intros L. unfold bits_byte. cbn [seq fold_left].
  do 8 (destruct j as [|j]; [destruct (f 0%nat), (f 1%nat), (f 2%nat), (f 3%nat), (f 4%nat), (f 5%nat), (f 6%nat), (f 7%nat); reflexivity|]). lia.
Qed.
Lemma leafset_bit o b i : leafset o b -> IsSet b i = unspent_bit o (N.to_nat i).
Proof.
  intros L. specialize (L i). unfold unspent_bit. destruct (IsSet b i).
  - destruct (proj1 L eq_refl) as (c & ->). reflexivity.
  - destruct (nth_error o (N.to_nat i)) as [(c, [|])|] eqn:E; [|reflexivity|reflexivity]. apply L. eauto.
Qed.
Lemma leafset_byte o b k : byte_ok b -> leafset o b -> GetByte b (N.of_nat k) = unspent_byte o k.
Proof.
  intros (_ & G & _) L. apply N.bits_inj. intros n. destruct (N.lt_ge_cases n 8) as [Ln|Ln].
  - pose proof (leafset_bit o b (N.of_nat k * 8 + (7 - n)) L) as E. rewrite IsSet_bit in E.
    replace ((N.of_nat k * 8 + (7 - n)) / 8) with (N.of_nat k) in E by lia. replace ((N.of_nat k * 8 + (7 - n)) mod 8) with (7 - n) in E by lia.
    replace (7 - (7 - n)) with n in E by lia. rewrite E.
    pose proof (bits_byte_bit (fun j => unspent_bit o (k * 8 + j)) (N.to_nat (7 - n)) ltac:(lia)) as F. 
    replace (7 - N.of_nat (N.to_nat (7 - n))) with n in F by lia. etransitivity; [|symmetry; exact F]. f_equal. lia.
  - rewrite (proj1 (lt256_bits _) (G _) n Ln). symmetry. exact (proj1 (lt256_bits _) (bits_byte_lt _) n Ln).
Qed.
Lemma leafset_pieces o b : bitmap_reachable b -> leafset o b -> N.of_nat (length o) < 2 ^ 62 -> leafset_chunks b (N.of_nat (length o)) = unspent_pieces o.
Proof.
  intros (f & ops & Hf & ->) L R. set (b := fold_left BF_step ops (BF_Load f)) in *.
  assert (O : byte_ok b) by (apply byte_ok_run, byte_ok_load, Hf).
  unfold leafset_chunks, unspent_pieces. unfold N_range at 1. rewrite map_map. change (2 ^ 62) with 4611686018427387904 in R.
  replace (N.to_nat (add64 (N.of_nat (length o)) 1023 / 1024 - 0)) with ((length o + 1023) / 1024)%nat.
  - apply map_ext. intros c. unfold leafset_chunk, N_range. rewrite map_map. replace (N.to_nat (_ - _)) with 128%nat by lia.
    apply map_ext. intros k. rewrite <- (leafset_byte o b _ O L). f_equal. lia.
  - unfold add64. rewrite N.mod_small by lia. rewrite N.sub_0_r, N2Nat.inj_div, N2Nat.inj_add, Nat2N.id. reflexivity.
Qed.

Section Accept.
Variable pool : Type.
Variable empty_pool : pool.
Variable ReconcileBlock : blockdb -> txhashset -> BlockHeader -> FullBlock -> pool -> outcome unit * pool.
Variable Blake2b : bytes -> bytes.
Variable BAD_BLOCKS : bytes -> bool.
Variable env : Environment.
Variable pow_keys : BlockHeader -> sip.
Variable verify : FullBlock -> outcome unit.
Variable sums : BlockSums -> FullBlock -> outcome BlockSums.
Notation Va := (ValidateAndAddBlock pool ReconcileBlock Blake2b env verify sums).
Notation Hr := (HandleReorg pool ReconcileBlock Blake2b env verify sums).
Notation Pbi := (ProcessBlockInternal pool ReconcileBlock Blake2b env verify sums).
Notation Pb := (ProcessBlock pool ReconcileBlock Blake2b BAD_BLOCKS env pow_keys verify sums).
Hypothesis HZ : forall m, Blake2b m <> repeat 0 32.
Notation commits := (commits Blake2b).
Notation valid_blocks := (valid_blocks Blake2b env verify sums).

Lemma roots_commit l s d h : represents Blake2b 1 l s d -> room l -> honest_sizes s h -> (ValidateRoots Blake2b s h = Ret true <-> commits h l).
Proof.
  intros R Rm Z. destruct (validate_ok Blake2b HZ 1 l s d h R Rm Z) as (tk & to & tp & tb & A & B & C & D & _ & V & _).
  rewrite (leafset_pieces _ _ (proj1 (rep_bits _ _ _ _ _ R)) (rep_leaf_o _ _ _ _ _ R) (proj1 Rm)) in D. rewrite V. split.
  - intros (E1 & E2 & E3). exists tk, to, tp, tb. auto 8.
  - intros (tk' & to' & tp' & tb' & A' & B' & C' & D' & E).
    rewrite (is_mmr_unique _ _ _ A A'), (is_mmr_unique _ _ _ B B'), (is_mmr_unique _ _ _ C C'), (is_mmr_unique _ _ _ D D'). exact E.
Qed.
Lemma applies_fun b l l1 l2 d : indexed 1 (l_outs l) d -> applies env 1 b l l1 -> applies env 1 b l l2 -> l1 = l2.
Proof.
  intros I ((o1 & S1 & C1) & K1) ((o2 & S2 & C2) & K2). apply spends_spends_at in S1 as (is1 & S1). apply spends_spends_at in S2 as (is2 & S2).
  rewrite (spends_at_fun env 1 _ _ _ d I _ _ _ _ S2 S1) in C2. apply creates_eq in C1. apply creates_eq in C2.
  destruct l1 as (a, k1), l2 as (a', k2). cbn [l_outs l_kernels] in *. congruence.
Qed.

(** ** One block runs *)
Variable pool_ok : pool -> Prop.
Definition pool_takes (b : FullBlock) : Prop := forall d s h p, pool_ok p -> fst (ReconcileBlock d s h b p) = Ret tt /\ pool_ok (snd (ReconcileBlock d s h b p)).
Lemma va_runs b n hp s s1 d1 ps sm : pool_takes b -> pool_ok (n_pool n) ->
  tget (d_headers (view n)) (h_previousBlockHash (fb_header b)) = Some hp -> now_ (n_set n) = Some s ->
  ApplyBlock Blake2b env (view n) b s = Ret (Some (s1, d1)) -> verify b = Ret tt -> ValidateRoots Blake2b s1 (fb_header b) = Ret true ->
  tget (d_sums d1) (h_previousBlockHash (fb_header b)) = Some ps -> sums ps b = Ret sm ->
  exists n', Va b n = (Some (Ret tt), n').
Proof.
  intros Pt Po A1 A2 A3 A4 A5 A6 A7. unfold ValidateAndAddBlock, bbind, bget, bput, blift. rewrite A1, A2, A3, A4, A5. cbn [negb]. rewrite A6, A7.
  match goal with |- context [ReconcileBlock ?d ?s ?h b ?p] => destruct (Pt d s h p Po) as (Q & _); destruct (ReconcileBlock d s h b p) as (r, p') end.
  cbn [fst] in Q. subst r. eexists. reflexivity.
Qed.
Lemma va_pool b n n' : pool_takes b -> pool_ok (n_pool n) -> Va b n = (Some (Ret tt), n') -> pool_ok (n_pool n').
Proof.
  intros Pt Po E. unfold ValidateAndAddBlock in E. apply bbind_inv in E as (n0 & n1 & E0 & E). injection E0 as <- <-.
  destruct (tget (d_headers (view n)) _) as [hp|] eqn:Eh; [|discriminate]. destruct (now_ (n_set n)) as [s|] eqn:Es; [|discriminate].
  apply bbind_inv in E as (r & n1 & E0 & E). unfold blift in E0. injection E0 as Ea <-. destruct r as [(s1, d1)|]; [|discriminate].
  apply bbind_inv in E as (u & n1 & E0 & E). unfold bput in E0. injection E0 as _ <-.
  apply bbind_inv in E as ([] & n1 & E0 & E). unfold blift in E0. injection E0 as Ev <-.
  apply bbind_inv in E as (ok & n1 & E0 & E). unfold blift in E0. injection E0 as Er <-. destruct ok; cbn [negb] in E; [|discriminate].
  destruct (tget (d_sums d1) _) as [ps|] eqn:Ep; [|discriminate].
  apply bbind_inv in E as (sm & n1 & E0 & E). unfold blift in E0. injection E0 as Esm <-.
  apply bbind_inv in E as (n1 & n2 & E0 & E). unfold bget in E0. injection E0 as <- <-.
  apply bbind_inv in E as (v & n2 & E0 & E). unfold bput in E0. injection E0 as _ <-.
  apply bbind_inv in E as (n1 & n2 & E0 & E). unfold bget in E0. injection E0 as <- <-.
  match type of E with context [ReconcileBlock ?d ?s ?h b ?p] => destruct (Pt d s h p Po) as (_ & Q); destruct (ReconcileBlock d s h b p) as (r, p') end.
  apply bbind_inv in E as (w & n2 & E0 & E). unfold bput in E0. injection E0 as _ <-. unfold blift in E. injection E as _ <-. exact Q.
Qed.

Variable genesis : FullBlock.
Variable genesis_sums : BlockSums.
Variable HS : list BlockHeader.
Variable BS : list FullBlock.
Notation base := (fb_header genesis).
Notation l0 := (genesis_ledger genesis).
Hypothesis Small : forall h, In h HS -> small h.
Hypothesis Unique : no_collision HS.
Hypothesis Gen_in : In base HS.
Hypothesis Gen : genesis_ok genesis.
Hypothesis Blocks_in : forall b, In b BS -> In (fb_header b) HS.
Hypothesis Well : forall b, In b BS -> well_formed b.
Hypothesis Sizes : true_sizes genesis BS.
Notation good := (good Blake2b env verify sums genesis genesis_sums BS).
Notation NI := (NI pool Blake2b env verify sums genesis genesis_sums HS BS).
Lemma Gh : h_height base = 0.
Proof. apply Gen. Qed.

(** What the invariant says about the next block. *)
Lemma next_fits chain s d l b : good chain s d l -> In b BS -> chained base (chain ++ [b]) ->
  N.of_nat (length (l_outs l) + length (b_outputs (fb_body b))) < 2 ^ 62 /\ N.of_nat (length (l_kernels l) + length (b_kernels (fb_body b))) < 2 ^ 62.
Proof.
  intros [(Ch & R & ND & Hd & Rm) C I S] J C'.
  pose proof (sizes_at genesis BS Sizes chain b I J C') as (Z1 & Z2 & Z3 & Z4).
  destruct (ledger_counts env genesis chain l (chain_ok_ledger _ _ _ _ _ _ _ Ch)) as (L1 & L2).
  rewrite outputs_snoc, <- L1 in Z3. rewrite kernels_snoc, <- L2 in Z4. auto.
Qed.
Lemma prev_tip chain b : chained base (chain ++ [b]) -> h_previousBlockHash (fb_header b) = BlockHeader_GetHash (tip base chain).
Proof. intros C. apply chained_app in C as (_ & C). apply C. Qed.
Lemma chain_sums_snoc chain b t t' : verify b = Ret tt -> chain_sums verify sums genesis_sums chain = Ret t -> sums t b = Ret t' ->
  chain_sums verify sums genesis_sums (chain ++ [b]) = Ret t'.
Proof.
  intros V. generalize genesis_sums. induction chain as [|c chain IH]; intros g0 E S; cbn [app chain_sums] in *.
  - apply Ret_inj in E. subst. rewrite V. cbn [obind]. rewrite S. reflexivity.
  - destruct (verify c); cbn [obind] in *; [|discriminate|discriminate]. destruct (sums g0 c); cbn [obind] in *; [|discriminate|discriminate]. apply IH; assumption.
Qed.
Lemma honest_next chain s d l b s1 d1 l1 : good chain s d l -> In b BS -> chained base (chain ++ [b]) -> applies env 1 b l l1 -> represents Blake2b 1 l1 s1 d1 ->
  room l1 /\ honest_sizes s1 (fb_header b).
Proof.
  intros G J C' A R. destruct G as [(Ch & _ & ND & Hd & Rm) C I S].
  pose proof (sizes_at genesis BS Sizes chain b I J C') as (Z1 & Z2 & Z3 & Z4).
  destruct (ledger_counts env genesis (chain ++ [b]) l1 (chain_ledger_snoc _ _ _ _ _ _ _ (chain_ok_ledger _ _ _ _ _ _ _ Ch) A)) as (L1 & L2).
  rewrite <- L1 in Z1, Z3. rewrite <- L2 in Z2, Z4. split; [split; assumption|].
  assert (Lk : length (kernel_records (l_kernels l1)) = length (l_kernels l1)) by apply map_length.
  assert (Lo : length (output_records (l_outs l1)) = length (l_outs l1)) by apply map_length.
  split.
  - rewrite (files_size Blake2b _ _ _ (rep_outputs _ _ _ _ _ R)), Lo; [exact Z1|]. rewrite Lo. exact Z3.
  - rewrite (files_size Blake2b _ _ _ (rep_kernels _ _ _ _ _ R)), Lk; [exact Z2|]. rewrite Lk. exact Z4.
Qed.

(** One block, from a good state: [Va] succeeds exactly if the block is valid. *)
Lemma va_exact chain s l n b total : good chain s (view n) l -> now_ (n_set n) = Some s -> In b BS -> chained base (chain ++ [b]) ->
  tget (d_headers (view n)) (hash_of b) = Some (fb_header b) -> chain_sums verify sums genesis_sums chain = Ret total -> pool_takes b -> pool_ok (n_pool n) ->
  ((exists n', Va b n = (Some (Ret tt), n')) <-> valid_blocks l total [b]) /\
  (forall n' l' t', Va b n = (Some (Ret tt), n') -> applies env 1 b l l' -> sums total b = Ret t' ->
    exists s1, good (chain ++ [b]) s1 (view n') l' /\ now_ (n_set n') = Some s1 /\ chain_sums verify sums genesis_sums (chain ++ [b]) = Ret t' /\
      d_headers (view n') = d_headers (view n) /\ pool_ok (n_pool n')).
Proof.
  intros G Es J C' Eh Et Pt Po. destruct (next_fits chain s (view n) l b G J C') as (F1 & F2).
  pose proof G as [(Ch & R & ND & Hd & Rm) C I S]. destruct (S chain [] (eq_sym (app_nil_r chain))) as (x & X1 & X2). rewrite Et in X1. injection X1 as <-.
  rewrite <- (prev_tip _ _ C') in X2.
  pose proof (apply_ok Blake2b env 1 l s (view n) b R (Well _ J) (conj F1 F2)) as X.
  assert (Hp : tget (d_headers (view n)) (h_previousBlockHash (fb_header b)) = Some (tip base chain)).
  { rewrite (prev_tip _ _ C'). exact (proj1 (chain_tip _ _ _ _ _ _ _ Ch)). }
  split; [split|].
  - intros (n' & E). apply va_ok in E as (hp & s2 & s1 & d1 & ps & sm & Q1 & Q2 & Q3 & Q4 & Q5 & Q6 & Q7 & Q8 & Q9 & Q10).
    rewrite Es in Q2. injection Q2 as <-. rewrite Q3 in X. destruct X as (l' & is & o & Sp & Cr & K & R' & Hd' & T1 & T2 & T3 & T4).
    rewrite T3, X2 in Q6. injection Q6 as <-.
    assert (A : applies env 1 b l l') by (split; [exists o; split; [apply (spends_at_spends env 1 _ _ is), Sp|exact Cr]|exact K]).
    destruct (honest_next chain s (view n) l b s1 d1 l' G J C' A R') as (Rm' & Hz).
    cbn [AcceptSpec.valid_blocks]. split; [exact Q4|]. exists l', sm. split; [exact A|]. split; [exact Q7|]. split; [|exact Logic.I].
    apply (roots_commit l' s1 d1); assumption.
  - intros (V & l' & t' & A & Sm & Cm & _).
    destruct (ApplyBlock Blake2b env (view n) b s) as [[(s1, d1)|]| |] eqn:Ea; [|exfalso; eauto|destruct X|exfalso; destruct X; eauto].
    destruct X as (l1 & is & o & Sp & Cr & K & R' & Hd' & T1 & T2 & T3 & T4).
    assert (A1 : applies env 1 b l l1) by (split; [exists o; split; [apply (spends_at_spends env 1 _ _ is), Sp|exact Cr]|exact K]).
    rewrite (applies_fun b l l' l1 (view n) (rep_index _ _ _ _ _ R) A A1) in Cm.
    destruct (honest_next chain s (view n) l b s1 d1 l1 G J C' A1 R') as (Rm' & Hz).
    apply (va_runs b n (tip base chain) s s1 d1 total t'); try assumption; [|rewrite T3; exact X2]. apply (roots_commit l1 s1 d1); assumption.
  - intros n' l' t' E A Sm. pose proof (va_pool b n n' Pt Po E) as Po'. apply va_ok in E as (hp & s2 & s1 & d1 & ps & sm & Q1 & Q2 & Q3 & Q4 & Q5 & Q6 & Q7 & Q8 & Q9 & Q10).
    rewrite Es in Q2. injection Q2 as <-.
    destruct (good_step Blake2b env verify sums genesis genesis_sums HS BS Small Unique Gen_in Gh Blocks_in Well Sizes
                chain s (view n) l b s1 d1 ps sm G J C' Eh Q3 Q4 Q6 Q7) as (l1 & G1 & Hd1 & T1 & T2 & A1).
    assert (V : view n' = mkDB (tput (d_blocks (view n)) (hash_of b) b) (d_headers (view n)) (tput (d_sums (view n)) (hash_of b) sm) (d_positions d1) (d_spent d1)).
    { unfold view at 1. rewrite Q9, Q10. unfold db_AddBlock, db_AddBlockSums. cbn [d_blocks d_sums d_positions d_spent]. rewrite T1, T2. reflexivity. }
    rewrite <- V in G1. rewrite (applies_fun b l l' l1 (view n) (rep_index _ _ _ _ _ R) A A1).
    rewrite T2, X2 in Q6. injection Q6 as <-. exists s1. split; [exact G1|]. split; [exact Q8|]. split; [|split; [rewrite V; reflexivity|exact Po']].
    apply (chain_sums_snoc chain b total); assumption.
Qed.
Lemma each_va_runs bs : forall n chain s l total, good chain s (view n) l -> now_ (n_set n) = Some s -> incl bs BS -> chained base (chain ++ bs) ->
  (forall b, In b bs -> tget (d_headers (view n)) (hash_of b) = Some (fb_header b)) -> chain_sums verify sums genesis_sums chain = Ret total ->
  Forall pool_takes bs -> pool_ok (n_pool n) -> ((exists n', each Va bs n = (Some (Ret tt), n')) <-> valid_blocks l total bs).
Proof.
  induction bs as [|b bs IH]; intros n chain s l total G Es Ib C Eh Et Pt Po; cbn [each].
  - split; [intros _; exact Logic.I|]. intros _. exists n. reflexivity.
  - change (chain ++ b :: bs) with (chain ++ [b] ++ bs) in *. rewrite app_assoc in *.
    pose proof (proj1 (proj1 (chained_app base (chain ++ [b]) bs) C)) as C1.
    assert (Jb : In b BS) by (apply Ib; left; reflexivity). inversion Pt as [|? ? P1 P2]; subst.
    destruct (va_exact chain s l n b total G Es Jb C1 (Eh b (or_introl eq_refl)) Et P1 Po) as (X & Y).
    assert (Step : forall n1 l' t', Va b n = (Some (Ret tt), n1) -> applies env 1 b l l' -> sums total b = Ret t' ->
      ((exists n', each Va bs n1 = (Some (Ret tt), n')) <-> valid_blocks l' t' bs)).
    { intros n1 l' t' E A S. destruct (Y n1 l' t' E A S) as (s1 & G1 & Es1 & Et1 & Hd1 & Po1).
      apply (IH n1 (chain ++ [b]) s1); try assumption; [intros x J; apply Ib; right; exact J|]. rewrite Hd1. intros x J. apply Eh. right. exact J. }
    split.
    + intros (n' & E). apply bbind_inv in E as ([] & n1 & E0 & E). destruct (proj1 X (ex_intro _ n1 E0)) as (V & l' & t' & A & S & Cm & _).
      cbn [AcceptSpec.valid_blocks]. split; [exact V|]. exists l', t'. repeat (split; [assumption|]). apply (Step n1 l' t' E0 A S). eauto.
    + intros (V & l' & t' & A & S & Cm & W). destruct (proj2 X) as (n1 & E0); [split; [exact V|]; exists l', t'; repeat (split; [assumption|]); exact Logic.I|].
      destruct (proj2 (Step n1 l' t' E0 A S) W) as (n' & E). exists n'. unfold bbind. rewrite E0. exact E.
Qed.

(** ** The chain and the ledger are determined *)
Lemma ledger_fun d chain : forall l l2, chain_ok env 1 base l0 d chain l -> chain_ledger env 1 l0 chain l2 -> l2 = l.
Proof.
  induction chain as [|b chain IH] using rev_ind; intros l l2 Ch Cl.
  - inversion Cl as [|a x y z _ _ E]; [|destruct a; discriminate E]. inversion Ch as [E|a x1 x2 x3 x4 x5 x6 x7 x8 x9 x10 x11 x12 x13 x14 x15 x16 E]; [reflexivity|]. destruct a; discriminate.
  - apply chain_snoc_inv in Ch as (l1 & is & o & d1 & Ch & Ix & Sp & Cr & K & _). inversion Cl as [E|a x y z Cl2 A E]; [destruct chain; discriminate|].
    apply app_inj_tail in E as (-> & ->). rewrite (IH _ _ Ch Cl2) in A. refine (applies_fun b l1 _ _ d1 Ix A _).
    split; [exists o; split; [apply (spends_at_spends env 1 _ _ is), Sp|exact Cr]|exact K].
Qed.
Lemma chain_stored d chain l : chain_ok env 1 base l0 d chain l -> forall c, In c chain -> tget (d_blocks d) (hash_of c) = Some c.
Proof. induction 1; intros y Jy; [destruct Jy|]. apply in_app_or in Jy as [Jy|[<-|[]]]; auto. Qed.
Lemma chain_fun (t : list (bytes * FullBlock)) : forall c1 c2, map hash_of c1 = map hash_of c2 -> (forall c, In c c1 -> tget t (hash_of c) = Some c) ->
  (forall c, In c c2 -> tget t (hash_of c) = Some c) -> c1 = c2.
Proof.
  induction c1 as [|a c1 IH]; intros [|b c2] E H1 H2; cbn [map] in E; try discriminate; [reflexivity|]. injection E as E1 E2. f_equal.
  - pose proof (H1 a (or_introl eq_refl)) as A. rewrite E1, (H2 b (or_introl eq_refl)) in A. congruence.
  - apply IH; [exact E2|intros c J; apply H1; right; exact J|intros c J; apply H2; right; exact J].
Qed.

(** ** A block on the tip *)
Lemma confirmed_commit (n : node pool) x : confirmed (rollback_all (commit_all (set_confirmed n x))) = x.
Proof. unfold confirmed, rollback_all, commit_all. cbn. unfold mmr_commit. cbn. destruct (mmr_dirty _); reflexivity. Qed.
Lemma header_known n chain s l b : NI n chain s l -> In b BS -> tget (d_headers (view n)) (hash_of b) <> None -> tget (d_headers (view n)) (hash_of b) = Some (fb_header b).
Proof.
  intros I J Eh. destruct (tget (d_headers (view n)) (hash_of b)) as [h|] eqn:Z; [|contradiction].
  destruct (header_in _ _ _ _ _ _ _ _ _ _ _ _ _ _ _ I Z) as (Jh & Hk). f_equal. apply Unique; [exact Jh|apply Blocks_in, J|exact Hk].
Qed.
Lemma tip_h chain : chained base chain -> h_height (tip base chain) = N.of_nat (length chain).
Proof. exact (tip_height verify sums genesis genesis_sums HS BS Gh Blocks_in Well chain). Qed.
Lemma len_hashes chain : length (hashes base chain) = S (length chain).
Proof. unfold hashes. cbn [length]. rewrite map_length. reflexivity. Qed.
Lemma next_accepted fuel n chain s l b total : NI n chain s l -> In b BS -> tget (d_headers (view n)) (hash_of b) <> None ->
  tget (d_blocks (view n)) (hash_of b) = None -> h_previousBlockHash (fb_header b) = BlockHeader_GetHash (tip base chain) ->
  chain_sums verify sums genesis_sums chain = Ret total -> pool_takes b -> pool_ok (n_pool n) ->
  ((exists n', Pbi fuel b n = (Some (Ret SUCCESS), n')) <-> h_height (fb_header b) = h_height (tip base chain) + 1 /\ valid_blocks l total [b]) /\
  (forall n', Pbi fuel b n = (Some (Ret SUCCESS), n') -> confirmed n' = hashes base (chain ++ [b])).
Proof.
  intros I J Eh Eb P Et Pt Po. pose proof (ni_good _ _ _ _ _ _ _ _ _ _ _ _ _ I) as G. pose proof (g_chained _ _ _ _ _ _ _ _ _ _ _ G) as C.
  pose proof (header_known _ _ _ _ _ I J Eh) as Eh'. pose proof (ni_confirmed _ _ _ _ _ _ _ _ _ _ _ _ _ I) as Cn.
  assert (Chd : h_height (fb_header b) = h_height (tip base chain) + 1 -> chained base (chain ++ [b])).
  { intros Hh. apply chained_app. split; [exact C|]. cbn [chained]. auto. }
  assert (Ds : DetermineBlockStatus fuel n b = Some NEXT_BLOCK).
  { unfold DetermineBlockStatus. change (BlockHeader_GetHash (fb_header b)) with (hash_of b). rewrite Eh', Cn, tip_hash_hashes, P, bytes_eqb_refl. reflexivity. }
  assert (Run : forall n', Pbi fuel b n = (Some (Ret SUCCESS), n') -> exists n1, Va b n = (Some (Ret tt), n1) /\
     h_height (fb_header b) = N.of_nat (length (confirmed_now n1)) /\ n' = rollback_all (commit_all (set_confirmed n1 (confirmed_now n1 ++ [hash_of b])))).
  { intros n' E. unfold ProcessBlockInternal, in_batch in E. match type of E with context [let '(_, _) := ?m n in _] => destruct (m n) as (r1, n1) eqn:Ex end.
    injection E as -> <-. unfold bbind at 1, bget at 1 in Ex. destruct (on_chain _ _ _); [discriminate|].
    change (BlockHeader_GetHash (fb_header b)) with (hash_of b) in Ex. rewrite Eb, Ds in Ex.
    apply bbind_inv in Ex as ([] & n2 & E1 & Ex). apply bbind_inv in Ex as ([] & n3 & E2 & Ex). apply caddb_ok in E2 as (Hh & ->).
    apply bbind_inv in Ex as (n4 & n5 & E3 & Ex). injection E3 as <- <-. apply bbind_inv in Ex as (u & n5 & E3 & Ex). injection E3 as _ <-.
    injection Ex as <-. exists n2. auto. }
  assert (Cv : forall n1, Va b n = (Some (Ret tt), n1) -> confirmed_now n1 = hashes base chain).
  { intros n1 E. pose proof (va_frames pool ReconcileBlock Blake2b env verify sums b n) as Fr. rewrite E in Fr. cbn [snd] in Fr. unfold confirmed_now. rewrite (proj1 Fr). exact Cn. }
  split; [split|].
  - intros (n' & E). apply Run in E as (n1 & E1 & Hh & _). rewrite (Cv n1 E1), len_hashes in Hh.
    assert (Hh' : h_height (fb_header b) = h_height (tip base chain) + 1) by (rewrite (tip_h _ C), Hh; lia).
    split; [exact Hh'|]. apply (va_exact chain s l n b total G (ni_set1 _ _ _ _ _ _ _ _ _ _ _ _ _ I) J (Chd Hh') Eh' Et Pt Po). eauto.
  - intros (Hh & V). destruct (va_exact chain s l n b total G (ni_set1 _ _ _ _ _ _ _ _ _ _ _ _ _ I) J (Chd Hh) Eh' Et Pt Po) as ((_ & X) & _).
    destruct (X V) as (n1 & E1). unfold ProcessBlockInternal, in_batch. unfold bbind at 1, bget at 1.
    destruct (on_chain _ _ _) eqn:O.
    { exfalso. rewrite Cn in O. apply on_chain_at in O. apply nth_error_In in O.
      exact (fresh_hash verify sums genesis genesis_sums HS BS Small Unique Gen_in Gh Blocks_in Well chain b (Chd Hh) (g_in _ _ _ _ _ _ _ _ _ _ _ G) J O). }
    change (BlockHeader_GetHash (fb_header b)) with (hash_of b). rewrite Eb, Ds. unfold bbind at 1. rewrite E1. unfold bbind at 1, Confirmed_AddBlock, bbind at 1, bget at 1.
    rewrite (Cv n1 E1), len_hashes, Hh, (tip_h _ C). replace (N.of_nat (length chain) + 1 =? N.of_nat (S (length chain))) with true by (symmetry; apply N.eqb_eq; lia).
    eexists. reflexivity.
  - intros n' E. apply Run in E as (n1 & E1 & Hh & ->). rewrite confirmed_commit, (Cv n1 E1). unfold hashes. rewrite map_app. reflexivity.
Qed.

(** ** A block on another branch *)
Lemma small_in b : In b BS -> h_height (fb_header b) < 2 ^ 62.
Proof. intros J. exact (Small _ (Blocks_in _ J)). Qed.
Lemma fork_runs (n : node pool) chain pre undone : chain = pre ++ undone -> chained base chain -> confirmed_now n = hashes base chain ->
  forall init b rest fuel, incl (init ++ [b]) BS -> chained base (pre ++ init ++ [b]) ->
  (forall x, In x init -> ~ In (hash_of x) (hashes base chain)) ->
  (forall x, In x init -> In x (n_orphans n) \/ tget (d_blocks (view n)) (hash_of x) = Some x) ->
  (forall x y, In x init -> In y (n_orphans n) -> hash_of y = hash_of x -> y = x) -> (length init <= fuel)%nat ->
  fork fuel n b (b :: rest) = Some (REORG (init ++ b :: rest)).
Proof.
  intros Ec C Cn. induction init as [|y init IH] using rev_ind; intros b rest fuel Ib Cb Off Known Twin Fu.
  - cbn [app] in *. apply chained_app in Cb as (Cp & (P & Hh & _)).
    pose proof (small_in b (Ib b (or_introl eq_refl))) as Sm. change (2 ^ 62) with 4611686018427387904 in Sm.
    assert (O : on_chain (confirmed_now n) (sub64 (h_height (fb_header b)) 1) (h_previousBlockHash (fb_header b)) = true).
    { apply on_chain_at. rewrite sub64_small by lia. rewrite Hh, (tip_h _ Cp), P, Cn. replace (N.to_nat _) with (length pre) by lia.
      assert (L : (length pre <= length chain)%nat) by (rewrite Ec, app_length; lia).
      assert (Q : nth_error (hashes base pre) (length pre) = Some (BlockHeader_GetHash (tip base pre))) by (rewrite hashes_map, nth_error_map, tip_nth; reflexivity).
      rewrite Ec. unfold hashes in *. rewrite map_app, app_comm_cons, nth_error_app1; [exact Q|]. cbn [length]. rewrite map_length. lia. }
    destruct fuel; cbn [fork]; rewrite O; reflexivity.
  - rewrite app_length in Fu. cbn [length] in Fu. destruct fuel as [|fuel]; [lia|].
    assert (Jy : In y (init ++ [y])) by (apply in_or_app; right; left; reflexivity).
    assert (Yb : In y BS) by (apply Ib, in_or_app; left; exact Jy).
    pose proof (small_in y Yb) as Sm. change (2 ^ 62) with 4611686018427387904 in Sm.
    assert (Cb' : chained base ((pre ++ init ++ [y]) ++ [b])) by (rewrite <- app_assoc; exact Cb).
    apply chained_app in Cb' as (Cy & (P & Hh & _)). rewrite app_assoc, tip_snoc in P, Hh.
    cbn [fork]. rewrite sub64_small by lia. rewrite Hh, P. replace (h_height (fb_header y) + 1 - 1) with (h_height (fb_header y)) by lia.
    change (BlockHeader_GetHash (fb_header y)) with (hash_of y).
    destruct (on_chain (confirmed_now n) _ _) eqn:O.
    { exfalso. rewrite Cn in O. apply on_chain_at in O. apply nth_error_In in O. exact (Off y Jy O). }
    assert (Go : fork fuel n y (y :: b :: rest) = Some (REORG ((init ++ [y]) ++ b :: rest))).
    { rewrite <- app_assoc. cbn [app]. apply IH; [intros x Jx; apply Ib, in_or_app; left; exact Jx|exact Cy| | | |lia].
      - intros x Jx. apply Off, in_or_app. left. exact Jx.
      - intros x Jx. apply Known, in_or_app. left. exact Jx.
      - intros x z Jx. apply Twin, in_or_app. left. exact Jx. }
    unfold GetOrphanBlock. destruct (find _ _) as [f|] eqn:Ef.
    + apply find_some in Ef as (Jf & Z). unfold is_block in Z. apply andb_prop in Z as (_ & Z). apply bytes_eqb_spec in Z.
      rewrite (Twin y f Jy Jf Z). exact Go.
    + destruct (Known y Jy) as [Jo|Ed].
      * exfalso. pose proof (find_none _ _ Ef y Jo) as Z. unfold is_block in Z. rewrite N.eqb_refl in Z. fold (hash_of y) in Z. rewrite bytes_eqb_refl in Z. discriminate Z.
      * rewrite Ed. exact Go.
Qed.
Lemma branch_exact fuel n chain s l pre undone init b lp tp : NI n chain s l -> chain = pre ++ undone -> incl (init ++ [b]) BS ->
  chained base (pre ++ init ++ [b]) -> (init ++ undone <> []) ->
  (forall x, In x (init ++ [b]) -> tget (d_headers (view n)) (hash_of x) <> None) ->
  (forall x, In x (init ++ [b]) -> ~ In (hash_of x) (hashes base chain)) -> tget (d_blocks (view n)) (hash_of b) = None ->
  (forall x, In x init -> In x (n_orphans n) \/ tget (d_blocks (view n)) (hash_of x) = Some x) ->
  (forall x y, In x init -> In y (n_orphans n) -> hash_of y = hash_of x -> y = x) -> (length init <= fuel)%nat -> (length undone <= fuel)%nat ->
  chain_ledger env 1 l0 pre lp -> chain_sums verify sums genesis_sums pre = Ret tp -> Forall pool_takes (init ++ [b]) -> pool_ok (n_pool n) ->
  ((exists n', Pbi fuel b n = (Some (Ret SUCCESS), n')) <-> valid_blocks lp tp (init ++ [b])) /\
  (forall n', Pbi fuel b n = (Some (Ret SUCCESS), n') -> confirmed n' =
     if h_totalDifficulty (tip base chain) <? h_totalDifficulty (fb_header b) then hashes base (pre ++ init ++ [b]) else hashes base chain).
Proof.
  intros I Ec Ib Cb Ne Eh Off Eb Known Twin F1 F2 Lp Tp Pt Po. pose proof (ni_good _ _ _ _ _ _ _ _ _ _ _ _ _ I) as G.
  pose proof (g_chained _ _ _ _ _ _ _ _ _ _ _ G) as C. pose proof (ni_confirmed _ _ _ _ _ _ _ _ _ _ _ _ _ I) as Cn.
  assert (Jb : In b (init ++ [b])) by (apply in_or_app; right; left; reflexivity).
  assert (Eh' : forall x, In x (init ++ [b]) -> tget (d_headers (view n)) (hash_of x) = Some (fb_header x)).
  { intros x Jx. apply (header_known n chain s l); [exact I|apply Ib, Jx|apply Eh, Jx]. }
  assert (Ds : DetermineBlockStatus fuel n b = Some (REORG (init ++ [b]))).
  { unfold DetermineBlockStatus. change (BlockHeader_GetHash (fb_header b)) with (hash_of b). rewrite (Eh' b Jb), Cn, tip_hash_hashes.
    destruct (bytes_eqb _ _) eqn:Z.
    - exfalso. apply bytes_eqb_spec in Z. destruct init as [|y init] using rev_ind.
      + cbn [app] in *. rewrite (prev_tip _ _ Cb) in Z. destruct (g_inv _ _ _ _ _ _ _ _ _ _ _ G) as (_ & _ & ND & _).
        destruct undone as [|u undone] using rev_ind; [apply Ne; reflexivity|]. rewrite Ec, app_assoc, tip_snoc in Z. rewrite Ec in ND.
        unfold hashes in ND. rewrite app_assoc, map_app, app_comm_cons in ND. cbn [map] in ND. apply NoDup_remove_2 in ND. apply ND. rewrite app_nil_r.
        fold (hash_of u) in Z. rewrite Z. apply (tip_pre_in genesis pre undone).
      + clear IHinit. rewrite app_assoc in Cb. rewrite (prev_tip _ _ Cb), app_assoc, tip_snoc in Z.
        apply (Off y); [apply in_or_app; left; apply in_or_app; right; left; reflexivity|]. unfold hash_of. rewrite <- Z.
        pose proof (tip_pre_in genesis chain []) as T. rewrite app_nil_r in T. exact T.
    - apply (fork_runs n chain pre undone Ec C Cn init b [] fuel); try assumption. intros x Jx. apply Off, in_or_app. left. exact Jx. }
  assert (O : on_chain (confirmed_now n) (h_height (fb_header b)) (hash_of b) = false).
  { destruct (on_chain _ _ _) eqn:O; [|reflexivity]. exfalso. rewrite Cn in O. apply on_chain_at in O. apply nth_error_In in O. exact (Off b Jb O). }
  destruct (Start_ex Blake2b genesis Gen) as (s0 & d0 & St).
  assert (G2 : good (pre ++ undone) s (view n) l) by (rewrite <- Ec; exact G).
  destruct (rewind_inv Blake2b env 1 base l0 s0 d0 St pre undone s (view n) l fuel (g_inv _ _ _ _ _ _ _ _ _ _ _ G2) F2) as (s1 & d1 & l1' & Er & _).
  destruct (good_rewind Blake2b env verify sums genesis genesis_sums HS BS Gh Blocks_in Well s0 d0 St pre undone s (view n) l fuel s1 d1 G2 Er) as (T & l1 & G1).
  assert (El : lp = l1). { destruct (g_inv _ _ _ _ _ _ _ _ _ _ _ G1) as (Ch1 & _). exact (ledger_fun _ _ _ _ Ch1 Lp). }
  subst lp. set (n1 := set_bdb (set_set n (Some s1)) d1).
  assert (V1 : view n1 = d1). { destruct T as (_ & T & _). unfold view, n1. cbn. destruct d1 as [a b1 c d e]. cbn in *. rewrite T. reflexivity. }
  rewrite <- V1 in G1.
  pose proof (each_va_runs (init ++ [b]) n1 pre s1 l1 tp G1 eq_refl Ib Cb Eh' Tp Pt Po) as X.
  destruct (init ++ [b]) as [|front rest] eqn:Ebr; [destruct Jb|].
  assert (La : last (front :: rest) front = b) by (rewrite <- Ebr; apply last_last).
  assert (Pf : h_previousBlockHash (fb_header front) = BlockHeader_GetHash (tip base pre)).
  { apply chained_app in Cb as (_ & Cb). apply Cb. }
  assert (Hf : h_height (fb_header front) = N.of_nat (S (length pre))).
  { apply chained_app in Cb as (Cp & (_ & Cb & _)). rewrite (tip_h _ Cp) in Cb. lia. }
  assert (Tc : tget (d_headers (view n)) (h_previousBlockHash (fb_header front)) = Some (tip base pre)).
  { rewrite Pf. destruct (g_inv _ _ _ _ _ _ _ _ _ _ _ G1) as (Ch1 & _). pose proof (proj1 (chain_tip _ _ _ _ _ _ _ Ch1)) as Q. exact Q. }
  assert (Fr : forall n2, each Va (front :: rest) n1 = (Some (Ret tt), n2) -> frame pool n n2).
  { intros n2 Ev. pose proof (each_frames pool Va (front :: rest) (va_frames pool ReconcileBlock Blake2b env verify sums) n1) as Fr. rewrite Ev in Fr. exact Fr. }
  assert (Cn2 : forall n2, each Va (front :: rest) n1 = (Some (Ret tt), n2) -> confirmed_now n2 = hashes base chain).
  { intros n2 Ev. unfold confirmed_now. rewrite (proj1 (Fr n2 Ev)). exact Cn. }
  pose proof (small_in front (Ib front (or_introl eq_refl))) as Sf. change (2 ^ 62) with 4611686018427387904 in Sf.
  (* how the call goes on *)
  assert (Pb_eq : Pbi fuel b n = (let '(r, n') := Hr fuel (front :: rest) n in
     (match r with Some (Ret _) => Some (Ret SUCCESS) | Some Throw => Some Throw | Some Fault => Some Fault | None => None end, rollback_all n'))).
  { unfold ProcessBlockInternal, in_batch. unfold bbind at 1, bget at 1. change (BlockHeader_GetHash (fb_header b)) with (hash_of b). rewrite O, Eb, Ds.
    unfold bbind. destruct (Hr fuel (front :: rest) n) as ([[]|], n'); reflexivity. }
  assert (Hr_eq : Hr fuel (front :: rest) n = bbind (each Va (front :: rest)) (fun _ =>
      if confirmed_difficulty n <? h_totalDifficulty (fb_header b) then
        bbind (Confirmed_Rewind (sub64 (h_height (fb_header front)) 1)) (fun _ => bbind (each Confirmed_AddBlock (front :: rest)) (fun _ => bbind bget (fun n => bput (commit_all n))))
      else bbind bget (fun n =>
        let n := rollback_all n in let n := set_bdb n (fold_left (fun d b => db_AddBlock b d) (front :: rest) (now_ (n_db n))) in
        bput (mkNode pool (n_chain n) (keep (n_db n)) (n_set n) (n_orphans n) (n_pool n)))) n1).
  { unfold HandleReorg. unfold bbind at 1, bget at 1. rewrite (ni_set1 _ _ _ _ _ _ _ _ _ _ _ _ _ I), Tc. unfold bbind at 1, blift at 1. rewrite Er.
    unfold bbind at 1, bput at 1. cbn [fst snd]. rewrite La. reflexivity. }
  rewrite (difficulty_ok _ _ _ _ _ _ _ _ _ _ _ _ _ I) in Hr_eq.
  assert (Add : forall n2 : node pool, confirmed_now n2 = hashes base chain -> bbind (Confirmed_Rewind (sub64 (h_height (fb_header front)) 1)) (fun _ =>
      bbind (each Confirmed_AddBlock (front :: rest)) (fun _ => bbind bget (fun n => bput (commit_all n)))) n2 =
      (Some (Ret tt), commit_all (set_confirmed n2 (hashes base (pre ++ front :: rest))))).
  { intros n2 Q. unfold bbind at 1, Confirmed_Rewind, bbind at 1, bget at 1. rewrite Q, sub64_small, len_hashes, Hf by lia.
    replace (N.of_nat (S (length pre)) - 1) with (N.of_nat (length pre)) by lia.
    replace (N.of_nat (length pre) <? N.of_nat (S (length chain))) with true by (symmetry; apply N.ltb_lt; rewrite Ec, app_length; lia).
    unfold bput at 1. replace (N.to_nat (N.of_nat (length pre) + 1)) with (S (length pre)) by lia.
    rewrite <- hashes_firstn by (rewrite Ec, app_length; lia). rewrite Ec, firstn_app, Nat.sub_diag, firstn_all. cbn [firstn]. rewrite app_nil_r.
    assert (Ad : forall bs pre (n2 : node pool), chained base (pre ++ bs) -> confirmed_now n2 = hashes base pre ->
      each Confirmed_AddBlock bs n2 = (Some (Ret tt), set_confirmed n2 (hashes base (pre ++ bs)))).
    { clear - verify sums genesis_sums Blocks_in Well Gen. induction bs as [|x bs IH]; intros pre n2 C Q; cbn [each].
      - rewrite app_nil_r, <- Q. rewrite set_confirmed_id. reflexivity.
      - change (pre ++ x :: bs) with (pre ++ [x] ++ bs) in *. rewrite app_assoc in *.
        pose proof (proj1 (chained_app base (pre ++ [x]) bs) C) as (C1 & _). apply chained_app in C1 as (Cp & (_ & Hx & _)).
        unfold bbind at 1, Confirmed_AddBlock, bbind at 1, bget at 1. rewrite Q, len_hashes, Hx, (tip_h _ Cp).
        replace (N.of_nat (length pre) + 1 =? N.of_nat (S (length pre))) with true by (symmetry; apply N.eqb_eq; lia). unfold bput at 1.
        rewrite (IH (pre ++ [x])); [|exact C|unfold confirmed_now, set_confirmed; cbn; unfold hashes; rewrite map_app; reflexivity].
        rewrite set_confirmed_twice. reflexivity. }
    unfold bbind at 1. rewrite (Ad (front :: rest) pre); [|exact Cb|reflexivity]. rewrite set_confirmed_twice. reflexivity. }
  assert (Fin : forall n2, each Va (front :: rest) n1 = (Some (Ret tt), n2) -> exists n', Pbi fuel b n = (Some (Ret SUCCESS), n') /\ confirmed n' =
     if h_totalDifficulty (tip base chain) <? h_totalDifficulty (fb_header b) then hashes base (pre ++ front :: rest) else hashes base chain).
  { intros n2 Ev. rewrite Pb_eq, Hr_eq. unfold bbind at 1. rewrite Ev. destruct (_ <? _).
    - rewrite (Add n2 (Cn2 n2 Ev)). eexists. split; [reflexivity|apply confirmed_commit].
    - eexists. split; [reflexivity|]. unfold confirmed. cbn. rewrite (proj1 (Fr n2 Ev)).
      exact (ni_conf _ _ _ _ _ _ _ _ _ _ _ _ _ I). }
  assert (Inv : forall n', Pbi fuel b n = (Some (Ret SUCCESS), n') -> exists n2, each Va (front :: rest) n1 = (Some (Ret tt), n2)).
  { intros n' E. rewrite Pb_eq, Hr_eq in E. unfold bbind at 1 in E. destruct (each Va (front :: rest) n1) as ([[[]| |]|], n2); try discriminate E. eauto. }
  split; [split|].
  - intros (n' & E). apply X. exact (Inv n' E).
  - intros V. destruct (proj2 X V) as (n2 & Ev). destruct (Fin n2 Ev) as (n' & E & _). eauto.
  - intros n' E. destruct (Inv n' E) as (n2 & Ev). destruct (Fin n2 Ev) as (n3 & E3 & R). rewrite E in E3. injection E3 as <-. exact R.
Qed.
End Accept.
