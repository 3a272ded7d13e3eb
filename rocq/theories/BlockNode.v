(** The node's invariant over all events. *)
From Verif Require Import Base Bytes MMRIndexModel MMRHashModel CodecModel ConsensusModel CuckooModel CacheModel HeaderModel HeaderSpec HeaderProofs HeaderInv
  ValidationModel UtxoModel UtxoSpec UtxoProofs UtxoRewind UtxoRoots BlockModel BlockSpec BlockHeaders BlockProofs.
Local Open Scope N_scope.

Section Node.
Variable pool : Type.
Variable empty_pool : pool.
Variable ReconcileBlock : blockdb -> txhashset -> BlockHeader -> FullBlock -> pool -> outcome unit * pool.
Variable Blake2b : bytes -> bytes.
Variable BAD_BLOCKS : bytes -> bool.
Variable env : Environment.
Variable pow_keys : BlockHeader -> sip.
Variable verify : FullBlock -> outcome unit.
Variable sums : BlockSums -> FullBlock -> outcome BlockSums.
Notation Va := (ValidateAndAddBlock pool ReconcileBlock Blake2b env verify sums).
Notation Hr := (HandleReorg pool ReconcileBlock Blake2b env verify sums).
Notation Pbi := (ProcessBlockInternal pool ReconcileBlock Blake2b env verify sums).
Notation Pb := (ProcessBlock pool ReconcileBlock Blake2b BAD_BLOCKS env pow_keys verify sums).

(** ** Calls *)
Lemma bbind_inv {A C} (m : B pool A) (k : A -> B pool C) n x n' : bbind m k n = (Some (Ret x), n') ->
  exists a n1, m n = (Some (Ret a), n1) /\ k a n1 = (Some (Ret x), n').
Proof. unfold bbind. destruct (m n) as [[[a| |]|] n1]; intros E; try discriminate. eauto. Qed.
(** Nothing is committed, the orphan blocks get fewer; header chain, database and orphan headers are not touched. *)
Definition frame (n n' : node pool) : Prop :=
  n_chain n' = n_chain n /\ committed (n_db n') = committed (n_db n) /\ committed (n_set n') = committed (n_set n) /\ incl (n_orphans n') (n_orphans n).
Lemma frame_refl n : frame n n.
Proof. split; [reflexivity|]. split; [reflexivity|]. split; [reflexivity|]. apply incl_refl. Qed.
Lemma frame_trans a b c : frame a b -> frame b c -> frame a c.
Proof. intros (A1 & A2 & A3 & A4) (B1 & B2 & B3 & B4). split; [congruence|]. split; [congruence|]. split; [congruence|]. eapply incl_tran; eassumption. Qed.
Definition bframes {A} (m : B pool A) : Prop := forall n, frame n (snd (m n)).
Lemma bframes_bind {A C} (m : B pool A) (k : A -> B pool C) n : frame n (snd (m n)) ->
  (forall a n1, m n = (Some (Ret a), n1) -> frame n1 (snd (k a n1))) -> frame n (snd (bbind m k n)).
Proof.
  intros F G. unfold bbind. destruct (m n) as [[[a| |]|] n1] eqn:E; cbn [snd] in *; try exact F. eapply frame_trans; [exact F|]. exact (G a n1 eq_refl).
Qed.
Lemma remove_incl h k o : incl (RemoveOrphan h k o) o.
Proof.
  induction o as [|b o IH]; [intros x J; exact J|]. cbn [RemoveOrphan]. destruct (is_block h k b); intros x J; [right; exact J|].
  destruct J as [J|J]; [left; exact J|right; apply IH, J].
Qed.
Lemma va_frames b : bframes (Va b).
Proof.
  intros n. unfold ValidateAndAddBlock. apply bframes_bind; [apply frame_refl|]. intros n0 n1 E. injection E as <- <-.
  destruct (tget (d_headers (view n)) _); [|apply frame_refl]. destruct (now_ (n_set n)) as [s|]; [|apply frame_refl].
  apply bframes_bind; [apply frame_refl|]. intros r n1 E. injection E as _ <-. destruct r as [(s1, d1)|]; [|apply frame_refl].
  apply bframes_bind; [split; [reflexivity|]; split; [reflexivity|]; split; [reflexivity|]; apply incl_refl|]. intros u n1 E. clear E.
  apply bframes_bind; [apply frame_refl|]. intros [] n2 E. injection E as _ <-.
  apply bframes_bind; [apply frame_refl|]. intros ok n2 E. injection E as _ <-. destruct ok; cbn [negb]; [|apply frame_refl].
  destruct (tget (d_sums d1) _) as [ps|]; [|apply frame_refl].
  apply bframes_bind; [apply frame_refl|]. intros sm n2 E. injection E as _ <-.
  apply bframes_bind; [apply frame_refl|]. intros n2 n3 E. injection E as <- <-.
  apply bframes_bind; [split; [reflexivity|]; split; [reflexivity|]; split; [reflexivity|]; apply remove_incl|]. intros v n3 E. clear E.
  apply bframes_bind; [apply frame_refl|]. intros n4 n5 E. injection E as <- <-.
  destruct (ReconcileBlock _ _ _ _ _) as (r, p).
  apply bframes_bind; [split; [reflexivity|]; split; [reflexivity|]; split; [reflexivity|]; apply incl_refl|]. intros w n5 E. apply frame_refl.
Qed.
Lemma each_frames f bs : (forall b, bframes (f b)) -> bframes (each f bs).
Proof.
  intros F. induction bs as [|b bs IH]; intros n; cbn [each]; [apply frame_refl|]. apply bframes_bind; [apply F|]. intros a n1 _. apply IH.
Qed.
Lemma va_ok b n n' : Va b n = (Some (Ret tt), n') -> exists hp s s1 d1 ps sm,
  tget (d_headers (view n)) (h_previousBlockHash (fb_header b)) = Some hp /\ now_ (n_set n) = Some s /\
  ApplyBlock Blake2b env (view n) b s = Ret (Some (s1, d1)) /\ verify b = Ret tt /\ ValidateRoots Blake2b s1 (fb_header b) = Ret true /\
  tget (d_sums d1) (h_previousBlockHash (fb_header b)) = Some ps /\ sums ps b = Ret sm /\
  now_ (n_set n') = Some s1 /\ now_ (n_db n') = db_AddBlock b (db_AddBlockSums (hash_of b) sm d1) /\ n_chain n' = n_chain n.
Proof.
  intros E. pose proof (va_frames b n) as Fr. rewrite E in Fr. cbn [snd] in Fr. destruct Fr as (Fr & _).
  unfold ValidateAndAddBlock in E. apply bbind_inv in E as (n0 & n1 & E0 & E). injection E0 as <- <-.
  destruct (tget (d_headers (view n)) _) as [hp|] eqn:Eh; [|discriminate]. destruct (now_ (n_set n)) as [s|] eqn:Es; [|discriminate].
  apply bbind_inv in E as (r & n1 & E0 & E). unfold blift in E0. injection E0 as Ea <-. destruct r as [(s1, d1)|]; [|discriminate].
  apply bbind_inv in E as (u & n1 & E0 & E). unfold bput in E0. injection E0 as _ <-.
  apply bbind_inv in E as ([] & n1 & E0 & E). unfold blift in E0. injection E0 as Ev <-.
  apply bbind_inv in E as (ok & n1 & E0 & E). unfold blift in E0. injection E0 as Er <-. destruct ok; cbn [negb] in E; [|discriminate].
  destruct (tget (d_sums d1) _) as [ps|] eqn:Ep; [|discriminate].
  apply bbind_inv in E as (sm & n1 & E0 & E). unfold blift in E0. injection E0 as Esm <-.
  apply bbind_inv in E as (n1 & n2 & E0 & E). unfold bget in E0. injection E0 as <- <-.
  apply bbind_inv in E as (v & n2 & E0 & E). unfold bput in E0. injection E0 as _ <-.
  apply bbind_inv in E as (n1 & n2 & E0 & E). unfold bget in E0. injection E0 as <- <-.
  destruct (ReconcileBlock _ _ _ _ _) as (r, p).
  apply bbind_inv in E as (w & n2 & E0 & E). unfold bput in E0. injection E0 as _ <-. unfold blift in E. injection E as _ <-.
  exists hp, s, s1, d1, ps, sm. repeat (split; [first [reflexivity|assumption]|]). reflexivity.
Qed.
(** ** The confirmed chain within a batch *)
Lemma caddb_ok b (n n' : node pool) : Confirmed_AddBlock b n = (Some (Ret tt), n') ->
  h_height (fb_header b) = N.of_nat (length (confirmed_now n)) /\ n' = set_confirmed n (confirmed_now n ++ [hash_of b]).
Proof.
  unfold Confirmed_AddBlock. intros E. apply bbind_inv in E as (n0 & n1 & E0 & E). injection E0 as <- <-.
  destruct (_ =? _) eqn:Z; [|discriminate]. apply N.eqb_eq in Z. injection E as <-. auto.
Qed.
Lemma set_confirmed_twice n a b : set_confirmed (set_confirmed n a : node pool) b = set_confirmed n b.
Proof. reflexivity. Qed.
Lemma set_confirmed_id (n : node pool) : set_confirmed n (confirmed_now n) = n.
Proof. destruct n as [[[a b] ? ? ? ? ?] ? ? ? ?]. reflexivity. Qed.
Lemma cadd_each bs : forall (n n' : node pool), each Confirmed_AddBlock bs n = (Some (Ret tt), n') ->
  (forall i b, nth_error bs i = Some b -> h_height (fb_header b) = N.of_nat (length (confirmed_now n) + i)) /\ n' = set_confirmed n (confirmed_now n ++ map hash_of bs).
Proof.
  induction bs as [|b bs IH]; intros n n' E; cbn [each] in E.
  - split; [intros i b Z; destruct i; discriminate|]. unfold bret in E. injection E as <-. cbn [map]. rewrite app_nil_r, set_confirmed_id. reflexivity.
  - apply bbind_inv in E as ([] & n1 & E0 & E). apply caddb_ok in E0 as (Hh & ->). apply IH in E as (I1 & I2).
    change (confirmed_now (set_confirmed n (confirmed_now n ++ [hash_of b]))) with (confirmed_now n ++ [hash_of b]) in I1, I2. split.
    + intros [|i] x Z; cbn in Z; [injection Z as <-; rewrite Nat.add_0_r; exact Hh|]. rewrite (I1 _ _ Z), app_length. cbn [length]. f_equal. lia.
    + rewrite I2, set_confirmed_twice, <- app_assoc. reflexivity.
Qed.
Lemma crewind_ok k (n n' : node pool) : Confirmed_Rewind k n = (Some (Ret tt), n') ->
  k < N.of_nat (length (confirmed_now n)) /\ n' = set_confirmed n (firstn (N.to_nat (k + 1)) (confirmed_now n)).
Proof.
  unfold Confirmed_Rewind. intros E. apply bbind_inv in E as (n0 & n1 & E0 & E). injection E0 as <- <-.
  destruct (_ <? _) eqn:Z; [|discriminate]. apply N.ltb_lt in Z. injection E as <-. auto.
Qed.

(** ** The invariant *)
Variable genesis : FullBlock.
Variable genesis_sums : BlockSums.
Variable HS : list BlockHeader.
Variable BS : list FullBlock.
Notation base := (fb_header genesis).
Notation l0 := (genesis_ledger genesis).
Hypothesis Small : forall h, In h HS -> small h.
Hypothesis Unique : no_collision HS.
Hypothesis Gen_in : In base HS.
Hypothesis Gen : genesis_ok genesis.
Hypothesis Blocks_in : forall b, In b BS -> In (fb_header b) HS.
Hypothesis Well : forall b, In b BS -> well_formed b.
Hypothesis Sizes : true_sizes genesis BS.
Lemma Gen_height : h_height base = 0.
Proof. apply Gen. Qed.
Notation good := (good Blake2b env verify sums genesis genesis_sums BS).
Lemma Start_ex : exists s0 d0, represents Blake2b 1 l0 s0 d0.
Proof.
  destruct Gen as (G1 & G2 & (G3 & _) & _). destruct (b_kernels (fb_body genesis)) as [|k [|]] eqn:Ek; try discriminate.
  destruct (b_outputs (fb_body genesis)) as [|o [|]] eqn:Eo; try discriminate. inversion G3 as [|? ? W _]; subst.
  destruct (fresh_ok Blake2b genesis k o (mkDB [] [] [] [] []) Ek Eo W eq_refl) as (s & _ & R & _). unfold genesis_ledger. rewrite Ek, Eo. exists s. eauto.
Qed.

Record NI (n : node pool) (chain : list FullBlock) (s : txhashset) (l : ledger) : Prop := mkNI {
  ni_head : HI HS (n_chain n);
  ni_db : now_ (n_db n) = committed (n_db n);
  ni_set1 : now_ (n_set n) = Some s;
  ni_set2 : committed (n_set n) = Some s;
  ni_conf : committed (s_confirmed (n_chain n)) = hashes base chain;
  ni_good : good chain s (view n) l;
  ni_roots : chain <> [] -> ValidateRoots Blake2b s (tip base chain) = Ret true;
  ni_blocks : forall k b, tget (d_blocks (now_ (n_db n))) k = Some b -> In b BS /\ hash_of b = k;
  ni_orphans : incl (n_orphans n) BS }.
Lemma ni_confirmed n chain s l : NI n chain s l -> confirmed_now n = hashes base chain.
Proof. intros I. unfold confirmed_now. rewrite (proj1 (hi_quiet _ _ (ni_head _ _ _ _ I))). exact (ni_conf _ _ _ _ I). Qed.
Lemma ni_idle n chain s l : NI n chain s l -> idle n.
Proof. intros [A B C D _ _ _ _ _]. split; [apply A|]. split; [exact B|congruence]. Qed.
Lemma view_headers n chain s l : NI n chain s l -> d_headers (view n) = headers_db (n_chain n).
Proof. intros I. destruct (hi_quiet _ _ (ni_head _ _ _ _ I)) as (_ & _ & Q & _). exact Q. Qed.
Lemma header_in n chain s l k h : NI n chain s l -> tget (d_headers (view n)) k = Some h -> In h HS /\ BlockHeader_GetHash h = k.
Proof.
  intros I E. rewrite (view_headers _ _ _ _ I), tget_find in E. apply db_find_in in E. split; [exact (hi_in _ _ (ni_head _ _ _ _ I) _ _ E)|].
  symmetry. exact (hi_keyed _ _ (ni_head _ _ _ _ I) _ _ E).
Qed.
Lemma rollback_same n n' chain s l : NI n chain s l -> frame n n' -> same_node n (rollback_all n').
Proof.
  intros I (F1 & F2 & F3 & _). unfold same_node, rollback_all. cbn. rewrite F1, (quiet_end_id _ (hi_quiet _ _ (ni_head _ _ _ _ I))). split; [apply same_stores_refl|].
  unfold drop. rewrite F2, F3. rewrite <- (ni_db _ _ _ _ I) at 1. pose proof (ni_set1 _ _ _ _ I) as S1. pose proof (ni_set2 _ _ _ _ I) as S2.
  destruct (n_db n) as (a, b) eqn:Ed, (n_set n) as (c, d) eqn:Es. cbn in *. split; [reflexivity|congruence].
Qed.
Lemma NI_same n n' chain s l : NI n chain s l -> same_node n n' -> orphans_ok HS (n_chain n') -> incl (n_orphans n') BS -> NI n' chain s l.
Proof.
  intros I (Sc & Sd & Ss) O Ob. pose proof (same_grows _ _ _ (ni_head _ _ _ _ I) Sc O) as (H' & C' & more & D').
  destruct Sc as (S1 & S2 & S3 & S4 & S5).
  assert (V : view n' = view n) by (unfold view; rewrite Sd, S3; reflexivity).
  destruct I as [A1 A2 A3 A4 A5 A6 A7 A8 A9]. constructor; rewrite ?Sd, ?Ss, ?V, ?C'; assumption.
Qed.

Lemma hash_at' chain i h : chained base chain -> incl chain BS -> In h HS -> nth_error (hashes base chain) i = Some (BlockHeader_GetHash h) ->
  nth_error (base :: map fb_header chain) i = Some h /\ h_height h = N.of_nat i.
Proof. exact (hash_at verify sums genesis genesis_sums HS BS Small Unique Gen_in Gen_height Blocks_in Well chain i h). Qed.
Lemma tip_height' chain : chained base chain -> h_height (tip base chain) = N.of_nat (length chain).
Proof. exact (tip_height verify sums genesis genesis_sums HS BS Gen_height Blocks_in Well chain). Qed.

(** ** Blocks added one after the other *)
Lemma each_va bs : forall n n' chain s l, good chain s (view n) l -> now_ (n_set n) = Some s -> incl bs BS -> chained base (chain ++ bs) ->
  (forall b, In b bs -> tget (d_headers (view n)) (hash_of b) = Some (fb_header b)) -> each Va bs n = (Some (Ret tt), n') ->
  exists s' l', good (chain ++ bs) s' (view n') l' /\ now_ (n_set n') = Some s' /\
    (bs <> [] -> ValidateRoots Blake2b s' (tip base (chain ++ bs)) = Ret true).
Proof.
  induction bs as [|b bs IH]; intros n n' chain s l G Es Ib C Eh E; cbn [each] in E.
  - unfold bret in E. injection E as <-. exists s, l. rewrite app_nil_r. split; [exact G|]. split; [exact Es|]. intros Z. contradiction.
  - apply bbind_inv in E as ([] & n1 & E0 & E). apply va_ok in E0 as (hp & s2 & s1 & d1 & ps & sm & Q1 & Q2 & Q3 & Q4 & Q5 & Q6 & Q7 & Q8 & Q9 & Q10).
    rewrite Es in Q2. injection Q2 as <-.
    change (chain ++ b :: bs) with (chain ++ [b] ++ bs) in *. rewrite app_assoc in *.
    pose proof (proj1 (proj1 (chained_app base (chain ++ [b]) bs) C)) as C1.
    assert (Jb : In b BS) by (apply Ib; left; reflexivity).
    destruct (good_step Blake2b env verify sums genesis genesis_sums HS BS Small Unique Gen_in Gen_height Blocks_in Well Sizes
                chain s (view n) l b s1 d1 ps sm G Jb C1 (Eh b (or_introl eq_refl)) Q3 Q4 Q6 Q7) as (l1 & G1 & Hd & T1 & T2 & _).
    assert (V : view n1 = mkDB (tput (d_blocks (view n)) (hash_of b) b) (d_headers (view n)) (tput (d_sums (view n)) (hash_of b) sm) (d_positions d1) (d_spent d1)).
    { unfold view at 1. rewrite Q9, Q10. unfold db_AddBlock, db_AddBlockSums. cbn [d_blocks d_sums d_positions d_spent]. rewrite T1, T2. reflexivity. }
    rewrite <- V in G1. destruct (IH n1 n' (chain ++ [b]) s1 l1 G1 Q8) as (s' & l' & R1 & R2 & R3); try assumption.
    + intros x J. apply Ib. right. exact J.
    + intros x J. rewrite V. cbn [d_headers]. apply Eh. right. exact J.
    + exists s', l'. split; [exact R1|]. split; [exact R2|]. intros _. destruct bs as [|c bs]; [|apply R3; discriminate].
      cbn [each] in E. unfold bret in E. injection E as <-. rewrite app_nil_r in *. rewrite Q8 in R2. injection R2 as <-. rewrite tip_snoc. exact Q5.
Qed.
Lemma each_va_headers bs : forall n n', each Va bs n = (Some (Ret tt), n') -> forall b, In b bs -> exists h, tget (d_headers (view n)) (h_previousBlockHash (fb_header b)) = Some h.
Proof.
  induction bs as [|b bs IH]; intros n n' E x J; [destruct J|]. cbn [each] in E. apply bbind_inv in E as ([] & n1 & E0 & E).
  apply va_ok in E0 as (hp & s2 & s1 & d1 & ps & sm & Q1 & Q2 & Q3 & Q4 & Q5 & Q6 & Q7 & Q8 & Q9 & Q10). destruct J as [<-|J]; [eauto|].
  destruct (IH _ _ E x J) as (h & Hh). exists h. rewrite <- Hh. unfold view. cbn [d_headers]. rewrite Q10. reflexivity.
Qed.
Lemma each_va_blocks bs : forall n n', incl bs BS -> (forall k b, tget (d_blocks (now_ (n_db n))) k = Some b -> In b BS /\ hash_of b = k) ->
  each Va bs n = (Some (Ret tt), n') -> (forall d b s s1 d1, ApplyBlock Blake2b env d b s = Ret (Some (s1, d1)) -> d_blocks d1 = d_blocks d) ->
  forall k b, tget (d_blocks (now_ (n_db n'))) k = Some b -> In b BS /\ hash_of b = k.
Proof.
  induction bs as [|b bs IH]; intros n n' Ib Bk E Ap; cbn [each] in E; [unfold bret in E; injection E as <-; exact Bk|].
  apply bbind_inv in E as ([] & n1 & E0 & E). apply va_ok in E0 as (hp & s2 & s1 & d1 & ps & sm & Q1 & Q2 & Q3 & Q4 & Q5 & Q6 & Q7 & Q8 & Q9 & Q10).
  apply (IH n1); [intros x J; apply Ib; right; exact J| |exact E|exact Ap].
  intros k x. rewrite Q9. cbn [db_AddBlock db_AddBlockSums d_blocks]. rewrite tget_put. fold (hash_of b). destruct (bytes_eqb k (hash_of b)) eqn:Z.
  - apply bytes_eqb_spec in Z. intros J. injection J as <-. split; [apply Ib; left; reflexivity|symmetry; exact Z].
  - rewrite (Ap _ _ _ _ _ Q3). apply Bk.
Qed.
Lemma spend_d_blocks (d d1 : blockdb) b s s1 : ApplyBlock Blake2b env d b s = Ret (Some (s1, d1)) -> d_blocks d1 = d_blocks d.
Proof.
  unfold ApplyBlock. destruct (spend_inputs _ _ _ _ _) as [[(s2, sp)|]| |]; cbn [obind]; try discriminate.
  assert (A : forall outputs h s d s' d', add_outputs Blake2b h outputs s d = Ret (Some (s', d')) -> d_blocks d' = d_blocks d).
  { induction outputs as [|x outputs IH]; intros h s3 d3 s' d'; cbn [add_outputs]; [intros E; injection E as <- <-; reflexivity|].
    destruct (match GetOutputPosition _ _ with Some loc => _ | None => false end); [discriminate|].
    destruct (LeafIndex_AtPos _); cbn [obind]; try discriminate; destruct (PMMR_Append _ _ _); cbn [obind]; try discriminate;
      destruct (PMMR_Append _ _ _); cbn [obind]; try discriminate; intros E; apply IH in E; exact E. }
  destruct (add_outputs _ _ _ _ _) as [[(s3, d3)|]| |] eqn:E; cbn [obind]; try discriminate.
  destruct (add_kernels _ _ _); cbn [obind]; try discriminate. intros R. injection R as <- <-. apply A in E. exact E.
Qed.

(** ** Which branch a block belongs to *)
Fixpoint hlinks (bs : list FullBlock) : Prop :=
  match bs with a :: ((c :: _) as r) => h_previousBlockHash (fb_header c) = hash_of a /\ hlinks r | _ => True end.
Definition addable (n : node pool) (chain : list FullBlock) (b : FullBlock) : Prop :=
  In b BS /\ (tget (d_blocks (now_ (n_db n))) (hash_of b) = Some b \/ ~ In (hash_of b) (hashes base chain)).
Lemma on_chain_at l height hash : on_chain l height hash = true <-> nth_error l (N.to_nat height) = Some hash.
Proof.
  unfold on_chain. destruct (nth_error l (N.to_nat height)) as [x|]; [|split; discriminate]. split; intros E.
  - apply bytes_eqb_spec in E. congruence.
  - injection E as ->. apply bytes_eqb_refl.
Qed.
Lemma fork_ok n chain s l : NI n chain s l -> forall fuel b rest bs, Forall (addable n chain) (b :: rest) -> hlinks (b :: rest) ->
  fork fuel n b (b :: rest) = Some (REORG bs) ->
  exists front pre, bs = front :: pre /\ Forall (addable n chain) bs /\ hlinks bs /\ last bs front = last (b :: rest) front /\
    on_chain (hashes base chain) (sub64 (h_height (fb_header front)) 1) (h_previousBlockHash (fb_header front)) = true.
Proof.
  intros I. pose proof (ni_confirmed _ _ _ _ I) as Cn. induction fuel as [|fuel IH]; intros b rest bs A L E; cbn [fork] in E; rewrite Cn in E.
  - destruct (on_chain _ _ _) eqn:O; [|discriminate]. injection E as <-. exists b, rest. auto.
  - destruct (on_chain (hashes base chain) _ _) eqn:O; [injection E as <-; exists b, rest; auto|].
    assert (Step : forall f, addable n chain f -> hash_of f = h_previousBlockHash (fb_header b) -> fork fuel n f (f :: b :: rest) = Some (REORG bs) ->
      exists front pre, bs = front :: pre /\ Forall (addable n chain) bs /\ hlinks bs /\ last bs front = last (b :: rest) front /\
        on_chain (hashes base chain) (sub64 (h_height (fb_header front)) 1) (h_previousBlockHash (fb_header front)) = true).
    { intros f Af Hf Ef. destruct (IH f (b :: rest) bs) as (front & pre & R1 & R2 & R3 & R4 & R5).
      - constructor; assumption.
      - split; [symmetry; exact Hf|exact L].
      - exact Ef.
      - exists front, pre. auto 6. }
    destruct (GetOrphanBlock _ _ _) as [f|] eqn:Eo.
    + apply find_some in Eo as (Jf & Z). unfold is_block in Z. apply andb_prop in Z as (Z1 & Z2). apply N.eqb_eq in Z1. apply bytes_eqb_spec in Z2.
      refine (Step f _ Z2 E). split; [exact (ni_orphans _ _ _ _ I _ Jf)|]. right. intros J. apply In_nth_error in J as (i & J).
      pose proof (ni_good _ _ _ _ I) as G.
      destruct (hash_at' chain i (fb_header f) (g_chained _ _ _ _ _ _ _ _ _ _ _ G) (g_in _ _ _ _ _ _ _ _ _ _ _ G) (Blocks_in _ (ni_orphans _ _ _ _ I _ Jf)) J) as (_ & Hi).
      assert (O2 : on_chain (hashes base chain) (sub64 (h_height (fb_header b)) 1) (h_previousBlockHash (fb_header b)) = true); [|congruence].
      apply on_chain_at. rewrite <- Z1, Hi, Nat2N.id, <- Z2. exact J.
    + destruct (tget (d_blocks (view n)) _) as [f|] eqn:Ed; [|discriminate]. change (d_blocks (view n)) with (d_blocks (now_ (n_db n))) in Ed.
      destruct (ni_blocks _ _ _ _ I _ _ Ed) as (Jf & Z2). refine (Step f _ Z2 E). split; [exact Jf|]. left. rewrite Z2. exact Ed.
Qed.
Lemma chained_of bs : forall before k, hlinks bs -> (forall i b, nth_error bs i = Some b -> h_height (fb_header b) = N.of_nat (k + i)) ->
  h_height before + 1 = N.of_nat k -> (forall b, nth_error bs 0 = Some b -> h_previousBlockHash (fb_header b) = BlockHeader_GetHash before) -> chained before bs.
Proof.
  induction bs as [|b bs IH]; intros before k L Hh Hb P; [exact I|]. cbn [chained]. split; [apply P; reflexivity|].
  pose proof (Hh 0%nat b eq_refl) as H0. split; [lia|]. apply (IH _ (S k)).
  - destruct bs; [exact I|apply L].
  - intros i x E. rewrite (Hh (S i) x E). f_equal. lia.
  - lia.
  - intros x E. destruct bs as [|c bs]; [discriminate|]. injection E as <-. apply L.
Qed.
(** ** Commit *)
Lemma NI_commit n0 n chain0 s0 l0' chain s l : NI n0 chain0 s0 l0' -> n_chain n = n_chain (set_confirmed n0 (hashes base chain)) ->
  now_ (n_set n) = Some s -> good chain s (view n) l -> (chain <> [] -> ValidateRoots Blake2b s (tip base chain) = Ret true) ->
  (forall k b, tget (d_blocks (now_ (n_db n))) k = Some b -> In b BS /\ hash_of b = k) -> incl (n_orphans n) BS ->
  NI (rollback_all (commit_all n)) chain s l.
Proof.
  intros I Ec Es G Rt Bk Ob. pose proof (ni_head _ _ _ _ I) as [(Q1 & Q2 & Q3 & Q4 & Q5) H2 H3 H4 H5 H6].
  assert (V : view (rollback_all (commit_all n)) = view n).
  { unfold view, rollback_all, commit_all. cbn. unfold mmr_commit. cbn. rewrite Ec. cbn. rewrite Q5. reflexivity. }
  constructor; try rewrite V; try assumption; unfold rollback_all, commit_all; cbn; unfold mmr_commit; cbn; rewrite ?Ec; cbn; rewrite ?Q5; cbn.
  - constructor; unfold quiet, best, headers_db; cbn; try assumption; [repeat split|rewrite Q2; exact H2|rewrite Q3; exact H3|rewrite Q3; exact H4].
  - reflexivity.
  - reflexivity.
Qed.
(** Blocks written to the database while the chain stays. *)
Lemma fold_add bs : forall d, let d' := fold_left (fun d b => db_AddBlock b d) bs d in
  d_headers d' = d_headers d /\ d_sums d' = d_sums d /\ d_positions d' = d_positions d /\ d_spent d' = d_spent d.
Proof. induction bs as [|b bs IH]; intros d; [auto|]. cbn [fold_left]. destruct (IH (db_AddBlock b d)) as (A & B & C & D). auto. Qed.
Lemma fold_add_blocks bs : forall d k x, tget (d_blocks (fold_left (fun d b => db_AddBlock b d) bs d)) k = Some x ->
  (In x bs /\ hash_of x = k) \/ tget (d_blocks d) k = Some x.
Proof.
  induction bs as [|b bs IH]; intros d k x E; [auto|]. cbn [fold_left] in E. apply IH in E as [(J & E)|E]; [left; split; [right; exact J|exact E]|].
  cbn [db_AddBlock d_blocks] in E. rewrite tget_put in E. fold (hash_of b) in E. destruct (bytes_eqb k (hash_of b)) eqn:Z; [|auto].
  apply bytes_eqb_spec in Z. injection E as <-. left. split; [left; reflexivity|symmetry; exact Z].
Qed.
Lemma fold_add_keep bs : forall d k, (forall b, In b bs -> hash_of b = k -> tget (d_blocks d) k = Some b) ->
  tget (d_blocks (fold_left (fun d b => db_AddBlock b d) bs d)) k = tget (d_blocks d) k.
Proof.
  induction bs as [|b bs IH]; intros d k Hk; [reflexivity|]. cbn [fold_left].
  assert (E : tget (d_blocks (db_AddBlock b d)) k = tget (d_blocks d) k).
  { cbn [db_AddBlock d_blocks]. rewrite tget_put. fold (hash_of b). destruct (bytes_eqb k (hash_of b)) eqn:Z; [|reflexivity].
    apply bytes_eqb_spec in Z. symmetry. apply Hk; [left; reflexivity|symmetry; exact Z]. }
  rewrite IH, E; [reflexivity|]. intros x J Hx. rewrite E. apply Hk; [right; exact J|exact Hx].
Qed.
Lemma NI_low n0 chain s l bs n : NI n0 chain s l -> Forall (addable n0 chain) bs -> frame n0 n ->
  let n1 := rollback_all n in
  let n2 := set_bdb n1 (fold_left (fun d b => db_AddBlock b d) bs (now_ (n_db n1))) in
  NI (rollback_all (mkNode pool (n_chain n2) (keep (n_db n2)) (n_set n2) (n_orphans n2) (n_pool n2))) chain s l.
Proof.
  intros I A (F1 & F2 & F3 & F4) n1 n2. pose proof (ni_head _ _ _ _ I) as Hh. pose proof (quiet_end_id _ (hi_quiet _ _ Hh)) as Qe.
  set (n3 := rollback_all _).
  assert (Ec : n_chain n3 = n_chain n0). { unfold n3, n2, n1, rollback_all, set_bdb. cbn. rewrite F1, Qe, Qe. reflexivity. }
  assert (Ed : now_ (n_db n3) = fold_left (fun d b => db_AddBlock b d) bs (now_ (n_db n0))).
  { unfold n3, n2, n1, rollback_all, set_bdb. cbn. rewrite F2, (ni_db _ _ _ _ I). reflexivity. }
  assert (Ed2 : committed (n_db n3) = now_ (n_db n3)) by reflexivity.
  assert (Es : n_set n3 = mkVer (Some s) (Some s)).
  { unfold n3, n2, n1, rollback_all, set_bdb, drop. cbn. rewrite F3, (ni_set2 _ _ _ _ I). reflexivity. }
  destruct (fold_add bs (now_ (n_db n0))) as (T1 & T2 & T3 & T4).
  rewrite Forall_forall in A.
  constructor; rewrite ?Ec, ?Es; cbn [now_ committed]; try reflexivity; try apply I.
  - apply (good_ext _ _ _ _ _ _ _ chain s (view n0)); [exact (ni_good _ _ _ _ I)| |].
    + unfold view. cbn [d_positions]. rewrite Ed. exact T3.
    + intros h J. unfold view. cbn [d_blocks d_headers d_spent d_sums]. rewrite Ed, Ec, T2, T4. repeat split.
      apply fold_add_keep. intros b Jb Hb. destruct (A b Jb) as (_ & [Z|Z]); [rewrite <- Hb; exact Z|]. rewrite Hb in Z. contradiction.
  - intros k b E. rewrite Ed in E. apply fold_add_blocks in E as [(J & E)|E]; [split; [apply A, J|exact E]|]. exact (ni_blocks _ _ _ _ I _ _ E).
  - unfold n3, n2, n1, rollback_all, set_bdb. cbn. eapply incl_tran; [exact F4|]. exact (ni_orphans _ _ _ _ I).
Qed.

(** ** One block *)
(** How the confirmed chain changes. *)
Inductive moves (b : FullBlock) (chain chain' : list FullBlock) : Prop :=
| moves_stay : chain' = chain -> moves b chain chain'
| moves_extend : chain' = chain ++ [b] -> moves b chain chain'
| moves_reorg pre undone bs : chain = pre ++ undone -> chain' = pre ++ bs ++ [b] ->
    h_totalDifficulty (tip base chain) < h_totalDifficulty (fb_header b) -> moves b chain chain'.
Lemma hashes_firstn chain i : (i <= length chain)%nat -> hashes base (firstn i chain) = firstn (S i) (hashes base chain).
Proof. intros L. unfold hashes. cbn [firstn]. rewrite firstn_map. reflexivity. Qed.
Lemma nth_hashes chain i x : nth_error (hashes base chain) i = Some x -> (i <= length chain)%nat /\ x = BlockHeader_GetHash (tip base (firstn i chain)).
Proof.
  intros E. assert (L : (i < length (hashes base chain))%nat) by (apply nth_error_Some; congruence). unfold hashes in L. cbn [length] in L. rewrite map_length in L.
  split; [lia|]. assert (E2 : nth_error (hashes base (firstn i chain)) i = Some x).
  { rewrite hashes_firstn by lia. rewrite nth_firstn. replace (i <? S i)%nat with true by (symmetry; apply Nat.ltb_lt; lia). exact E. }
  rewrite hashes_map in E2. rewrite nth_error_map in E2. pose proof (tip_nth base (firstn i chain)) as T. rewrite firstn_length_le in T by lia.
  rewrite T in E2. cbn in E2. congruence.
Qed.
Lemma tip_hash_hashes chain : tip_hash (hashes base chain) = BlockHeader_GetHash (tip base chain).
Proof.
  destruct chain as [|b chain] using rev_ind; [reflexivity|]. rewrite tip_snoc. unfold hashes, tip_hash. rewrite map_app, app_comm_cons. apply last_last.
Qed.
Lemma difficulty_ok n chain s l : NI n chain s l -> confirmed_difficulty n = h_totalDifficulty (tip base chain).
Proof.
  intros I. unfold confirmed_difficulty. rewrite (ni_confirmed _ _ _ _ I), tip_hash_hashes.
  destruct (g_inv _ _ _ _ _ _ _ _ _ _ _ (ni_good _ _ _ _ I)) as (Ch & _). destruct (chain_tip _ _ _ _ _ _ _ Ch) as (T & _). rewrite T. reflexivity.
Qed.

Lemma va_orphans_ok n n' : incl (n_orphans n) BS -> frame n n' -> incl (n_orphans n') BS.
Proof. intros A (_ & _ & _ & B). eapply incl_tran; eassumption. Qed.

Lemma next_ok n chain s l b n1 n2 : NI n chain s l -> In b BS -> tget (d_headers (view n)) (hash_of b) <> None ->
  h_previousBlockHash (fb_header b) = tip_hash (hashes base chain) ->
  Va b n = (Some (Ret tt), n1) -> Confirmed_AddBlock b n1 = (Some (Ret tt), n2) ->
  exists s' l', NI (rollback_all (commit_all n2)) (chain ++ [b]) s' l'.
Proof.
  intros I J Eh P E1 E2. pose proof (va_frames b n) as Fr. rewrite E1 in Fr. cbn [snd] in Fr.
  apply caddb_ok in E2 as (Hh & ->). assert (Cn : confirmed_now n1 = hashes base chain).
  { unfold confirmed_now. rewrite (proj1 Fr). exact (ni_confirmed _ _ _ _ I). }
  rewrite Cn in Hh. pose proof (ni_good _ _ _ _ I) as G. pose proof (g_chained _ _ _ _ _ _ _ _ _ _ _ G) as C.
  assert (C' : chained base (chain ++ [b])).
  { apply chained_app. split; [exact C|]. cbn [chained]. rewrite P, tip_hash_hashes. split; [reflexivity|]. split; [|exact Logic.I].
    rewrite (tip_height' _ C), Hh. unfold hashes. cbn [length]. rewrite map_length. lia. }
  assert (Eh' : tget (d_headers (view n)) (hash_of b) = Some (fb_header b)).
  { destruct (tget (d_headers (view n)) (hash_of b)) as [h|] eqn:Z; [|contradiction]. destruct (header_in _ _ _ _ _ _ I Z) as (Jh & Hk). f_equal.
    apply Unique; [exact Jh|apply Blocks_in, J|exact Hk]. }
  assert (Ee : each Va [b] n = (Some (Ret tt), n1)). { cbn [each]. unfold bbind. rewrite E1. reflexivity. }
  assert (Ib : incl [b] BS) by (intros x [<-|[]]; exact J).
  destruct (each_va [b] n n1 chain s l G (ni_set1 _ _ _ _ I) Ib C') as (s' & l' & G' & Es' & Rt); [intros x [<-|[]]; exact Eh'|exact Ee|].
  exists s', l'. apply (NI_commit n _ chain s l); [exact I| |exact Es'|exact G'|intros _; apply Rt; discriminate| |].
  - unfold set_confirmed, set_chain. cbn [n_chain]. rewrite (proj1 Fr), Cn. unfold hashes. rewrite map_app. reflexivity.
  - exact (each_va_blocks [b] n n1 Ib (ni_blocks _ _ _ _ I) Ee (fun d b s s1 d1 => spend_d_blocks d d1 b s s1)).
  - exact (va_orphans_ok _ _ (ni_orphans _ _ _ _ I) Fr).
Qed.

Lemma last_snoc {A} (l : list A) d : l <> [] -> exists pre, l = pre ++ [last l d].
Proof. intros N. destruct l as [|x l] using rev_ind; [contradiction|]. exists l. rewrite last_last. reflexivity. Qed.
Lemma last_header n chain (front : FullBlock) (rest : list FullBlock) b : Forall (addable n chain) (front :: rest) -> last (front :: rest) front = b -> In b BS.
Proof.
  intros F E. rewrite Forall_forall in F. apply F. destruct (last_snoc (front :: rest) front ltac:(discriminate)) as (pre & Q). rewrite E in Q. rewrite Q. apply in_or_app. right. left. reflexivity.
Qed.
Lemma reorg_step n chain s l fuel front rest b n' : NI n chain s l -> Forall (addable n chain) (front :: rest) -> hlinks (front :: rest) ->
  last (front :: rest) front = b -> tget (d_headers (view n)) (hash_of b) <> None ->
  on_chain (hashes base chain) (sub64 (h_height (fb_header front)) 1) (h_previousBlockHash (fb_header front)) = true ->
  Hr fuel (front :: rest) n = (Some (Ret tt), n') -> exists chain' s' l', NI (rollback_all n') chain' s' l' /\ moves b chain chain'.
Proof.
  intros I A L La Eh O E. apply on_chain_at in O. apply nth_hashes in O as (Oi & Op). set (i := N.to_nat _) in *. set (pre := firstn i chain) in *.
  pose proof (ni_good _ _ _ _ I) as G. pose proof (g_chained _ _ _ _ _ _ _ _ _ _ _ G) as C.
  unfold HandleReorg in E. apply bbind_inv in E as (n0 & n1 & E0 & E). injection E0 as <- <-. rewrite (ni_set1 _ _ _ _ I) in E.
  destruct (tget (d_headers (view n)) (h_previousBlockHash (fb_header front))) as [ch|] eqn:Ec; [|discriminate].
  assert (Ch : ch = tip base pre).
  { destruct (header_in _ _ _ _ _ _ I Ec) as (Jc & Hc). apply Unique; [exact Jc| |rewrite Hc; exact Op].
    destruct pre as [|z pre0] eqn:Ep using rev_ind; [exact Gen_in|]. rewrite tip_snoc. apply Blocks_in. apply (g_in _ _ _ _ _ _ _ _ _ _ _ G).
    apply (in_firstn i). fold pre. rewrite Ep. apply in_or_app. right. left. reflexivity. }
  subst ch. apply bbind_inv in E as ((s1, d1) & n1 & E0 & E). unfold blift in E0. injection E0 as Er <-. cbn [fst snd] in E.
  apply bbind_inv in E as (u & n1 & E0 & E). unfold bput in E0. injection E0 as _ <-.
  set (n1 := set_bdb (set_set n (Some s1)) d1) in *.
  apply bbind_inv in E as ([] & n2 & Ev & E).
  pose proof (each_frames Va (front :: rest) va_frames n1) as Fr. rewrite Ev in Fr. cbn [snd] in Fr.
  assert (Fr0 : frame n n1). { split; [reflexivity|]. split; [reflexivity|]. split; [reflexivity|]. apply incl_refl. }
  pose proof (frame_trans _ _ _ Fr0 Fr) as Fr2. rewrite Forall_forall in A.
  assert (Ib : incl (front :: rest) BS) by (intros x J; apply A, J).
  destruct (confirmed_difficulty n <? h_totalDifficulty (fb_header (last (front :: rest) front))) eqn:D.
  - apply N.ltb_lt in D. rewrite (difficulty_ok _ _ _ _ I), La in D.
    apply bbind_inv in E as ([] & n3 & Ew & E). apply crewind_ok in Ew as (Hk & ->).
    apply bbind_inv in E as ([] & n4 & Ea & E). apply cadd_each in Ea as (Hh & ->).
    apply bbind_inv in E as (n5 & n6 & E5 & E). injection E5 as <- <-. unfold bput in E. injection E as <-.
    assert (Cn : confirmed_now n2 = hashes base chain). { unfold confirmed_now. rewrite (proj1 Fr2). exact (ni_confirmed _ _ _ _ I). }
    rewrite Cn in *. rewrite set_confirmed_twice.
    change (confirmed_now (set_confirmed n2 ?x)) with x in Hh |- *.
    assert (Ei : N.to_nat (sub64 (h_height (fb_header front)) 1 + 1) = S i) by (unfold i; clear; lia).
    rewrite Ei in *. rewrite <- hashes_firstn in * by exact Oi. fold pre in Hh |- *.
    assert (Lp : length (hashes base pre) = S i). { unfold hashes, pre. cbn [length]. rewrite map_length, firstn_length_le by exact Oi. reflexivity. }
    rewrite Lp in Hh.
    assert (Cp : chained base pre). { rewrite <- (firstn_skipn i chain) in C. apply chained_app in C. apply C. }
    assert (C' : chained base (pre ++ front :: rest)).
    { apply chained_app. split; [exact Cp|]. apply (chained_of _ _ (S i)); [exact L|exact Hh| |].
      - rewrite (tip_height' _ Cp). unfold pre. rewrite firstn_length_le by exact Oi. lia.
      - intros x Ex. injection Ex as <-. exact Op. }
    destruct (Start_ex) as (s0 & d0 & St).
    rewrite <- (firstn_skipn i chain) in G. fold pre in G.
    destruct (good_rewind Blake2b env verify sums genesis genesis_sums HS BS Gen_height Blocks_in Well s0 d0 St pre (skipn i chain) s (view n) l fuel s1 d1 G Er) as (T & l1 & G1).
    assert (V1 : view n1 = d1). { destruct T as (_ & T & _). unfold view, n1. cbn. destruct d1 as [a b1 c d e]. cbn in *. rewrite T. reflexivity. }
    rewrite <- V1 in G1.
    assert (Hd : forall x, In x (front :: rest) -> tget (d_headers (view n1)) (hash_of x) = Some (fb_header x)).
    { change (d_headers (view n1)) with (d_headers (view n)). intros x Jx.
      assert (Some_h : tget (d_headers (view n)) (hash_of x) <> None).
      { apply in_split in Jx as (u1 & u2 & Eq). destruct u2 as [|y u2].
        - rewrite Eq, last_last in La. subst x. exact Eh.
        - assert (Jy : In y (front :: rest)). { rewrite Eq. apply in_or_app. right. right. left. reflexivity. }
          destruct (each_va_headers _ _ _ Ev y Jy) as (h & Hy).
          assert (Py : h_previousBlockHash (fb_header y) = hash_of x).
          { clear - L Eq. rewrite Eq in L. clear Eq. induction u1 as [|z u1 IH]; cbn [app] in L; [apply L|]. apply IH. destruct (u1 ++ x :: y :: u2) eqn:Q; [exact Logic.I|apply L]. }
          change (d_headers (view n1)) with (d_headers (view n)) in Hy. rewrite Py in Hy. congruence. }
      destruct (tget (d_headers (view n)) (hash_of x)) as [h|] eqn:Z; [|contradiction]. destruct (header_in _ _ _ _ _ _ I Z) as (Jh & Hk2). f_equal.
      apply Unique; [exact Jh|apply Blocks_in, Ib, Jx|exact Hk2]. }
    destruct (each_va (front :: rest) n1 n2 pre s1 l1 G1 eq_refl Ib C' Hd Ev) as (s' & l' & G' & Es' & Rt).
    exists (pre ++ front :: rest), s', l'. split.
    + apply (NI_commit n _ chain s l); [exact I| |exact Es'|exact G'|intros _; apply Rt; discriminate| |].
      * unfold set_confirmed, set_chain. cbn [n_chain]. rewrite (proj1 Fr2). unfold hashes. rewrite map_app, app_comm_cons. reflexivity.
      * refine (each_va_blocks (front :: rest) n1 n2 Ib _ Ev (fun d b s s1 d1 => spend_d_blocks d d1 b s s1)).
        destruct T as (T & _). unfold n1. cbn. rewrite T. exact (ni_blocks _ _ _ _ I).
      * exact (va_orphans_ok _ _ (ni_orphans _ _ _ _ I) Fr2).
    + destruct (last_snoc (front :: rest) front) as (bs & Eq); [discriminate|]. rewrite La in Eq.
      apply (moves_reorg b chain _ pre (skipn i chain) bs); [symmetry; apply firstn_skipn|rewrite Eq; reflexivity|exact D].
  - apply bbind_inv in E as (n5 & n6 & E5 & E). injection E5 as <- <-. unfold bput in E. injection E as <-.
    exists chain, s, l. split; [|apply moves_stay; reflexivity]. exact (NI_low n chain s l (front :: rest) n2 I (proj2 (Forall_forall _ _) A) Fr2).
Qed.

(** ** A call that fails leaves the stores as they were *)
Definition wframe (n n' : node pool) : Prop :=
  end_writer (n_chain n') = end_writer (n_chain n) /\ committed (n_db n') = committed (n_db n) /\ committed (n_set n') = committed (n_set n) /\ incl (n_orphans n') (n_orphans n).
Lemma frame_wframe n n' : frame n n' -> wframe n n'.
Proof. intros (A & B & C & D). split; [rewrite A; reflexivity|auto]. Qed.
Lemma wframe_trans a b c : wframe a b -> wframe b c -> wframe a c.
Proof. intros (A1 & A2 & A3 & A4) (B1 & B2 & B3 & B4). split; [congruence|]. split; [congruence|]. split; [congruence|]. eapply incl_tran; eassumption. Qed.
Definition ff {A} (m : B pool A) (n : node pool) : Prop := (exists x, fst (m n) = Some (Ret x)) \/ wframe n (snd (m n)).
Lemma ff_bind {A C} (m : B pool A) (k : A -> B pool C) n : wframe n (snd (m n)) -> (forall a n1, m n = (Some (Ret a), n1) -> ff (k a) n1) -> ff (bbind m k) n.
Proof.
  intros F G. unfold ff, bbind. destruct (m n) as [[[a| |]|] n1] eqn:E; cbn [snd fst] in *; try (right; exact F).
  destruct (G a n1 eq_refl) as [(x & X)|X]; [left; eauto|right]. eapply wframe_trans; eassumption.
Qed.
Lemma wframe_refl n : wframe n n.
Proof. apply frame_wframe, frame_refl. Qed.
Lemma ff_refl {A} (m : B pool A) n : snd (m n) = n -> ff m n.
Proof. intros E. right. rewrite E. apply wframe_refl. Qed.
Lemma wframe_confirmed n x : wframe n (set_confirmed n x).
Proof. split; [reflexivity|]. split; [reflexivity|]. split; [reflexivity|]. apply incl_refl. Qed.
Lemma cadd_wframe b (n : node pool) : wframe n (snd (Confirmed_AddBlock b n)).
Proof. unfold Confirmed_AddBlock, bbind, bget. destruct (_ =? _); [apply wframe_confirmed|apply wframe_refl]. Qed.
Lemma crewind_wframe k (n : node pool) : wframe n (snd (Confirmed_Rewind k n)).
Proof. unfold Confirmed_Rewind, bbind, bget. destruct (_ <? _); [apply wframe_confirmed|apply wframe_refl]. Qed.
Lemma cadds_wframe bs : forall (n : node pool), wframe n (snd (each Confirmed_AddBlock bs n)).
Proof.
  induction bs as [|b bs IH]; intros n; cbn [each]; [apply wframe_refl|]. unfold bbind. pose proof (cadd_wframe b n) as F.
  destruct (Confirmed_AddBlock b n) as [[[a| |]|] n1]; cbn [snd] in *; try exact F. eapply wframe_trans; [exact F|apply IH].
Qed.
Lemma reorg_ff fuel bs n : ff (Hr fuel bs) n.
Proof.
  unfold HandleReorg. apply ff_bind; [apply wframe_refl|]. intros n0 n1 E. injection E as <- <-.
  destruct (now_ (n_set n)) as [s|]; [|apply ff_refl; reflexivity]. destruct bs as [|front rest]; [apply ff_refl; reflexivity|].
  destruct (tget _ _) as [ch|]; [|apply ff_refl; reflexivity].
  apply ff_bind; [apply wframe_refl|]. intros sd n1 E. injection E as _ <-.
  apply ff_bind; [split; [reflexivity|]; split; [reflexivity|]; split; [reflexivity|]; apply incl_refl|]. intros u n1 _.
  apply ff_bind; [apply frame_wframe, each_frames, va_frames|]. intros v n2 _. destruct (_ <? _).
  - apply ff_bind; [apply crewind_wframe|]. intros w n3 _. apply ff_bind; [apply cadds_wframe|]. intros x n4 _.
    left. exists tt. reflexivity.
  - left. exists tt. reflexivity.
Qed.
Lemma rollback_same_w n n' chain s l : NI n chain s l -> wframe n n' -> same_node n (rollback_all n') /\ n_chain (rollback_all n') = n_chain n.
Proof.
  intros I (F1 & F2 & F3 & _). unfold same_node, rollback_all. cbn. rewrite F1, (quiet_end_id _ (hi_quiet _ _ (ni_head _ _ _ _ I))).
  split; [|reflexivity]. split; [apply same_stores_refl|].
  unfold drop. rewrite F2, F3. rewrite <- (ni_db _ _ _ _ I) at 1. pose proof (ni_set1 _ _ _ _ I) as S1. pose proof (ni_set2 _ _ _ _ I) as S2.
  destruct (n_db n) as (a, b) eqn:Ed, (n_set n) as (c, d) eqn:Es. cbn in *. split; [reflexivity|congruence].
Qed.
Definition result_ok (n : node pool) (chain : list FullBlock) (b : FullBlock) (r : option (outcome EBlockChainStatus)) (n' : node pool) : Prop :=
  (exists chain' s' l', NI n' chain' s' l' /\ moves b chain chain') /\ (r <> Some (Ret SUCCESS) -> same_node n n').
Lemma fail_ok n chain s l b r n' : NI n chain s l -> wframe n n' -> result_ok n chain b r (rollback_all n').
Proof.
  intros I F. destruct (rollback_same_w _ _ _ _ _ I F) as (S & Ec). split; [|intros _; exact S]. exists chain, s, l. split; [|apply moves_stay; reflexivity].
  apply (NI_same n); [exact I|exact S| |].
  - rewrite Ec. split; apply (ni_head _ _ _ _ I).
  - destruct F as (_ & _ & _ & F). cbn. eapply incl_tran; [exact F|]. exact (ni_orphans _ _ _ _ I).
Qed.

Lemma internal_ok fuel b n chain s l r n' : NI n chain s l -> In b BS -> Pbi fuel b n = (r, n') -> result_ok n chain b r n'.
Proof.
  intros I J E. unfold ProcessBlockInternal, in_batch in E. pose proof (ni_confirmed _ _ _ _ I) as Cn.
  pose proof (ni_good _ _ _ _ I) as G.
  match type of E with context [let '(_, _) := ?m n in _] => set (body := m) in * end.
  destruct (body n) as (r1, n1) eqn:Eb. injection E as <- <-.
  assert (Fail : wframe n n1 -> result_ok n chain b r1 (rollback_all n1)) by (intros F; exact (fail_ok n chain s l b r1 n1 I F)).
  unfold body in Eb. clear body. unfold bbind at 1, bget at 1 in Eb.
  destruct (on_chain (confirmed_now n) _ _) eqn:O; [injection Eb as <- <-; apply Fail, wframe_refl|].
  destruct (tget (d_blocks (view n)) _) as [x|] eqn:Ek; [injection Eb as <- <-; apply Fail, wframe_refl|].
  destruct (DetermineBlockStatus fuel n b) as [[| |bs]|] eqn:Ed; [| | |injection Eb as <- <-; apply Fail, wframe_refl].
  - destruct (IsOrphan _ _ _); [injection Eb as <- <-; apply Fail, wframe_refl|].
    unfold AddOrphanBlock, bbind, bget, bput, bret in Eb.
    assert (Sb : forall c0, orphans_ok HS (set_orphans (n_chain n) c0) -> forall o, incl o BS -> forall r,
      result_ok n chain b r (rollback_all (set_blocks (set_chain n (set_orphans (n_chain n) c0)) o))).
    { intros c0 Oc o Io r0.
      assert (S : same_node n (rollback_all (set_blocks (set_chain n (set_orphans (n_chain n) c0)) o))).
      { destruct (rollback_same_w n n chain s l I (wframe_refl n)) as ((A & A2) & Ec). split; [|exact A2]. exact A. }
      split; [|intros _; exact S]. exists chain, s, l. split; [|apply moves_stay; reflexivity]. apply (NI_same n); [exact I|exact S|exact Oc|exact Io]. }
    assert (Oid : orphans_ok HS (set_orphans (n_chain n) (s_orphans (n_chain n)))) by (split; apply (ni_head _ _ _ _ I)).
    assert (Eid : set_chain n (set_orphans (n_chain n) (s_orphans (n_chain n))) = n) by (destruct n as [[] ? ? ? ?]; reflexivity).
    assert (Ib : incl (n_orphans n ++ [b]) BS) by (apply incl_app; [exact (ni_orphans _ _ _ _ I)|intros z [<-|[]]; exact J]).
    destruct (Cached _ _ _).
    + cbn in Eb. unfold IsOrphan in Eb. destruct (existsb _ _); cbn in Eb; injection Eb as <- <-; [apply Fail, wframe_refl|].
      rewrite <- Eid at 2. apply Sb; assumption.
    + destruct (Put _ _ _ _ _) as [c| |] eqn:Ep; cbn in Eb.
      * assert (Oc : orphans_ok HS (set_orphans (n_chain n) c)).
        { split; intros k h Jk; cbn in Jk; apply (put_items _ _ _ _ _ Ep) in Jk as [Ex|Jk].
          - injection Ex as -> ->. reflexivity.
          - exact (hi_okeyed _ _ (ni_head _ _ _ _ I) _ _ Jk).
          - injection Ex as -> ->. apply Blocks_in, J.
          - exact (hi_oin _ _ (ni_head _ _ _ _ I) _ _ Jk). }
        unfold IsOrphan in Eb. destruct (existsb _ _); cbn in Eb; injection Eb as <- <-; [|exact (Sb c Oc _ Ib _)].
        apply (Sb c Oc (n_orphans n) (ni_orphans _ _ _ _ I)).
      * injection Eb as <- <-. apply Fail, wframe_refl.
      * injection Eb as <- <-. apply Fail, wframe_refl.
  - unfold DetermineBlockStatus in Ed. destruct (tget (d_headers (view n)) _) as [hh|] eqn:Eh; [|discriminate].
    destruct (bytes_eqb (tip_hash _) _) eqn:Et; [|].
    2:{ exfalso. clear - Ed. revert Ed. generalize [b]. generalize b. induction fuel as [|fuel IH]; intros c acc; cbn [fork].
        - destruct (on_chain _ _ _); discriminate.
        - destruct (on_chain _ _ _); [discriminate|]. destruct (GetOrphanBlock _ _ _); [apply IH|]. destruct (tget _ _); [apply IH|discriminate]. }
    apply bytes_eqb_spec in Et. rewrite Cn in Et. unfold bbind at 1 in Eb.
    pose proof (va_frames b n) as F1. destruct (Va b n) as [[[[]| |]|] n2] eqn:Ev; cbn [snd] in F1; try (injection Eb as <- <-; apply Fail, frame_wframe, F1).
    unfold bbind at 1 in Eb. pose proof (cadd_wframe b n2) as F2.
    destruct (Confirmed_AddBlock b n2) as [[[[]| |]|] n3] eqn:Ea; cbn [snd] in F2;
      try (injection Eb as <- <-; apply Fail; exact (wframe_trans _ _ _ (frame_wframe _ _ F1) F2)).
    unfold bbind, bget, bput, bret in Eb. injection Eb as <- <-.
    destruct (next_ok n chain s l b n2 n3 I J) as (s' & l' & R); [unfold hash_of; rewrite Eh; discriminate|symmetry; exact Et|exact Ev|exact Ea|].
    split; [|intros Z; contradiction]. exists (chain ++ [b]), s', l'. split; [exact R|apply moves_extend; reflexivity].
  - unfold DetermineBlockStatus in Ed. destruct (tget (d_headers (view n)) _) as [hh|] eqn:Eh; [|discriminate].
    destruct (bytes_eqb (tip_hash _) _) eqn:Et; [discriminate|].
    assert (Ab : addable n chain b).
    { split; [exact J|]. right. intros Jh. unfold hashes in Jh. destruct Jh as [Jh|Jh].
      - assert (Eq : fb_header b = base) by (apply Unique; [apply Blocks_in, J|exact Gen_in|symmetry; exact Jh]).
        assert (Z : on_chain (confirmed_now n) (h_height (fb_header b)) (BlockHeader_GetHash (fb_header b)) = true); [|congruence].
        rewrite Cn. apply on_chain_at. rewrite Eq, Gen_height. reflexivity.
      - apply in_map_iff in Jh as (c & Hc & Jc). destruct (g_inv _ _ _ _ _ _ _ _ _ _ _ G) as (Ch & _).
        assert (St : forall d chain l, chain_ok env 1 base l0 d chain l -> forall c, In c chain -> tget (d_blocks d) (hash_of c) = Some c).
        { induction 1; intros y Jy; [destruct Jy|]. apply in_app_or in Jy as [Jy|[<-|[]]]; auto. }
        pose proof (St _ _ _ Ch c Jc) as Sc. rewrite Hc in Sc. unfold hash_of in Sc. congruence. }
    destruct (fork_ok n chain s l I fuel b [] bs) as (front & rest & -> & A & L & La & Of); [constructor; [exact Ab|constructor]|exact Logic.I|exact Ed|].
    cbn [last] in La. unfold bbind at 1 in Eb.
    pose proof (reorg_ff fuel (front :: rest) n) as F. unfold ff in F.
    destruct (Hr fuel (front :: rest) n) as [[[[]| |]|] n2] eqn:Er; cbn [fst snd] in F;
      try (injection Eb as <- <-; apply Fail; destruct F as [(x & F)|F]; [discriminate|exact F]).
    unfold bret in Eb. injection Eb as <- <-. split; [|intros Z; contradiction].
    apply (reorg_step n chain s l fuel front rest b n2); try assumption. unfold hash_of. rewrite Eh. discriminate.
Qed.

(** ** Headers, restarts, the first start *)
Lemma db_grow n chain s l c' k : NI n chain s l -> grows HS (n_chain n) c' -> In k (hashes base chain) ->
  tget (headers_db c') k = tget (headers_db (n_chain n)) k.
Proof.
  intros I (H' & _ & more & D) J. rewrite !tget_find, D.
  assert (Some_h : exists h, db_find (headers_db (n_chain n)) k = Some h).
  { destruct (g_inv _ _ _ _ _ _ _ _ _ _ _ (ni_good _ _ _ _ I)) as (Ch & _).
    assert (St : forall d chain l, chain_ok env 1 base l0 d chain l -> forall k, In k (hashes base chain) -> exists h, tget (d_headers d) k = Some h).
    { induction 1 as [T Z|c0 l1 b1 l2 is o d2 Ch2 IH I2 S2 C2 K2 P2 Z2 T1 T2 T3]; intros y Jy.
      - destruct Jy as [<-|[]]. eauto.
      - unfold hashes in Jy, IH. rewrite map_app in Jy. destruct Jy as [Jy|Jy]; [apply IH; left; exact Jy|].
        apply in_app_or in Jy as [Jy|[<-|[]]]; [apply IH; right; exact Jy|eauto]. }
    rewrite <- tget_find. rewrite <- (view_headers _ _ _ _ I). exact (St _ _ _ Ch k J). }
  destruct Some_h as (h & Eh). rewrite Eh.
  assert (Eq : forall x, db_find (more ++ headers_db (n_chain n)) k = Some x -> x = h).
  { intros x Ex. apply db_find_in in Ex. apply db_find_in in Eh. rewrite <- D in Ex.
    apply Unique; [exact (hi_in _ _ H' _ _ Ex)|exact (hi_in _ _ (ni_head _ _ _ _ I) _ _ Eh)|].
    rewrite <- (hi_keyed _ _ H' _ _ Ex), <- (hi_keyed _ _ (ni_head _ _ _ _ I) _ _ Eh). reflexivity. }
  destruct (db_find (more ++ headers_db (n_chain n)) k) as [x|] eqn:Ex; [f_equal; apply Eq; reflexivity|].
  exfalso. apply db_find_in in Eh. destruct (in_db_find (more ++ headers_db (n_chain n)) k h) as (w & Ew); [apply in_or_app; right; exact Eh|congruence].
Qed.
Lemma NI_grows n chain s l c' : NI n chain s l -> grows HS (n_chain n) c' -> NI (set_chain n c') chain s l.
Proof.
  intros I Gr. pose proof Gr as (H' & C' & _). constructor; try apply I; cbn [set_chain n_chain].
  - exact H'.
  - rewrite C'. exact (ni_conf _ _ _ _ I).
  - apply (good_ext _ _ _ _ _ _ _ chain s (view n)); [exact (ni_good _ _ _ _ I)|reflexivity|]. intros h J. split; [reflexivity|]. split; [|auto].
    rewrite (view_headers _ _ _ _ I). rewrite <- (db_grow _ _ _ _ c' h I Gr J).
    unfold view. cbn. destruct (hi_quiet _ _ H') as (_ & _ & Q & _). rewrite Q. reflexivity.
Qed.
Lemma process_ok fuel now b n chain s l r n' : NI n chain s l -> In b BS -> Pb fuel now b n = (r, n') ->
  exists chain' s' l', NI n' chain' s' l' /\ moves b chain chain'.
Proof.
  intros I J E. assert (Stay : exists chain' s' l', NI n chain' s' l' /\ moves b chain chain') by (exists chain, s, l; split; [exact I|apply moves_stay; reflexivity]).
  unfold ProcessBlock in E. unfold bbind at 1, bget at 1 in E. destruct (_ <=? _); [injection E as <- <-; exact Stay|]. unfold bbind at 1 in E.
  destruct (ProcessSingleHeader _ _ _ _ _ _ _ _) as [(hr, c)|] eqn:Eh; [|injection E as <- <-; exact Stay].
  pose proof (single_grows Blake2b BAD_BLOCKS env pow_keys HS Small _ _ _ _ _ _ (ni_head _ _ _ _ I) (Blocks_in _ J) Eh) as Gr.
  pose proof (NI_grows _ _ _ _ _ I Gr) as I'.
  assert (Stay' : exists chain' s' l', NI (set_chain n c) chain' s' l' /\ moves b chain chain') by (exists chain, s, l; split; [exact I'|apply moves_stay; reflexivity]).
  destruct hr as [x| |]; try (injection E as <- <-; exact Stay'). unfold bbind at 1, blift at 1 in E.
  destruct (verify b) as [y| |]; try (injection E as <- <-; exact Stay').
  apply (internal_ok fuel b _ chain s l _ _ I' J E).
Qed.
Definition changes (chain chain' : list FullBlock) : Prop := chain' = chain \/ exists b, In b BS /\ moves b chain chain'.
Lemma moves_changes b chain chain' : In b BS -> moves b chain chain' -> changes chain chain'.
Proof. intros J M. right. eauto. Qed.
Lemma next_orphan_ok fuel now n chain s l r n' : NI n chain s l ->
  ProcessNextOrphanBlock pool ReconcileBlock Blake2b BAD_BLOCKS env pow_keys verify sums fuel now n = (r, n') ->
  exists chain' s' l', NI n' chain' s' l' /\ changes chain chain'.
Proof.
  intros I E. assert (Stay : exists chain' s' l', NI n chain' s' l' /\ changes chain chain') by (exists chain, s, l; split; [exact I|left; reflexivity]).
  unfold ProcessNextOrphanBlock in E. unfold bbind, bget in E. destruct (nth_error _ _) as [hash|]; [|injection E as <- <-; exact Stay].
  destruct (tget _ _) as [next|]; [|injection E as <- <-; exact Stay]. destruct (GetOrphanBlock _ _ _) as [b|] eqn:Eo; [|injection E as <- <-; exact Stay].
  apply find_some in Eo as (J & _). apply (ni_orphans _ _ _ _ I) in J.
  destruct (Pb fuel now b n) as (r1, n1) eqn:Ep. destruct (process_ok _ _ _ _ _ _ _ _ _ I J Ep) as (chain' & s' & l' & I' & M).
  pose proof (moves_changes b chain chain' J M) as Ch.
  destruct r1 as [[[]| |]|]; injection E as <- <-; exists chain', s', l'; (split; [|exact Ch]); try exact I'.
  apply (NI_same n1); [exact I'| | |].
  - split; [apply same_stores_refl|]. split; reflexivity.
  - split; apply (ni_head _ _ _ _ I').
  - cbn. eapply incl_tran; [apply remove_incl|]. exact (ni_orphans _ _ _ _ I').
Qed.
Lemma tip_ne_genesis pre suf : NoDup (hashes base (pre ++ suf)) -> pre <> [] -> bytes_eqb (BlockHeader_GetHash (tip base pre)) (BlockHeader_GetHash base) = false.
Proof.
  intros ND Ne. apply bytes_eqb_false. intros Eq. destruct pre as [|b pre] using rev_ind; [contradiction|]. rewrite tip_snoc in Eq. unfold hashes in ND.
  inversion ND as [|? ? N1 _]; subst. apply N1. rewrite <- Eq. apply in_map_iff. exists b. split; [reflexivity|]. apply in_or_app. left. apply in_or_app. right. left. reflexivity.
Qed.
Lemma restart_ok n chain s l n' : NI n chain s l -> restart pool empty_pool Blake2b genesis genesis_sums n = Ret n' -> NI n' chain s l.
Proof.
  intros I E. unfold restart in E. cbv zeta in E. pose proof (ni_head _ _ _ _ I) as Hh. pose proof (quiet_end_id _ (hi_quiet _ _ Hh)) as Qe.
  assert (Ec : n_chain (rollback_all n) = n_chain n) by (unfold rollback_all; cbn; exact Qe). rewrite Ec in E.
  destruct (Create Blake2b base (n_chain n)) as ([[]| |], c) eqn:Cr; [|discriminate|discriminate].
  destruct (create_grows Blake2b HS _ _ _ Hh Gen_in Cr) as (Gr & _). pose proof (NI_grows _ _ _ _ _ I Gr) as I'. pose proof Gr as (H' & C' & _).
  assert (Ed : committed (n_db (rollback_all n)) = now_ (n_db n)) by (cbn; symmetry; exact (ni_db _ _ _ _ I)). rewrite Ed in E.
  assert (Es : committed (n_set (rollback_all n)) = Some s) by (exact (ni_set2 _ _ _ _ I)). rewrite Es in E.
  destruct (hi_quiet _ _ H') as (Q1 & _ & Q3 & _).
  pose proof (g_inv _ _ _ _ _ _ _ _ _ _ _ (ni_good _ _ _ _ I')) as (Ch & _ & ND & Hd & _).
  destruct (chain_tip _ _ _ _ _ _ _ Ch) as (Tp & _).
  assert (Cn : now_ (s_confirmed c) = hashes base chain). { rewrite Q1, C'. exact (ni_conf _ _ _ _ I). }
  rewrite Cn, tip_hash_hashes in E. change (tget (d_headers (view (set_chain n c)))) with (tget (now_ (s_db c))) in Tp. rewrite Tp in E.
  apply Ret_inj in E. subst n'. rewrite <- Hd.
  replace (mkSet (m_pKernelMMR s) (m_pOutputPMMR s) (m_pRangeProofPMMR s) (m_pBlockHeader s)) with s by (destruct s; reflexivity).
  constructor; cbn [n_chain n_db n_set n_orphans now_ committed]; try reflexivity; try apply I'.
  - apply (good_ext _ _ _ _ _ _ _ chain s (view (set_chain n c))); [exact (ni_good _ _ _ _ I')|destruct (_ =? 1)%nat; reflexivity|].
    intros h J. destruct (length (now_ (s_candidate (n_chain n))) =? 1)%nat; [|auto]. unfold view. cbn [set_chain n_chain n_db now_ db_AddBlockSums d_blocks d_headers d_sums d_spent].
    split; [reflexivity|]. split; [reflexivity|]. split; [reflexivity|]. rewrite tget_put. destruct (bytes_eqb h _) eqn:Z; [|reflexivity].
    apply bytes_eqb_spec in Z. subst h. destruct (g_sums _ _ _ _ _ _ _ _ _ _ _ (ni_good _ _ _ _ I') [] chain eq_refl) as (x & X1 & X2). cbn [chain_sums] in X1.
    apply Ret_inj in X1. subst x. symmetry. exact X2.
  - intros k b Z. apply (ni_blocks _ _ _ _ I). destruct (_ =? 1)%nat in Z; exact Z.
  - intros x [].
Qed.
Lemma first_ok n : first_start pool empty_pool Blake2b genesis genesis_sums = Ret n -> exists s, NI n [] s l0.
Proof.
  intros E. unfold first_start in E. destruct Gen as (G1 & G2 & (G3 & _) & G4 & G5 & _).
  destruct (b_kernels (fb_body genesis)) as [|k [|]] eqn:Ek; try discriminate.
  destruct (b_outputs (fb_body genesis)) as [|o [|]] eqn:Eo; try discriminate. inversion G3 as [|? ? W _]; subst.
  destruct (fresh_ok Blake2b genesis k o (mkDB [] [] [] [] []) Ek Eo W eq_refl) as (s & Es & R & Hd & Z1 & Z2). rewrite Es in E. cbn [obind] in E.
  assert (L0 : l0 = mkLedger [(coin_of 0 o, true)] [k]) by (unfold genesis_ledger; rewrite Ek, Eo; reflexivity).
  unfold restart in E. cbv zeta in E.
  match type of E with context [Create Blake2b base ?c] => destruct (Create Blake2b base c) as ([[]| |], c1) eqn:Cr; [|discriminate E|discriminate E] end.
  unfold rollback_all, fresh, end_writer, drop in Cr. cbn [n_chain s_confirmed s_candidate s_db s_mmr s_orphans committed] in Cr.
  assert (H0 : HI HS (mkState (mkVer [BlockHeader_GetHash base] [BlockHeader_GetHash base]) (mkVer [BlockHeader_GetHash base] [BlockHeader_GetHash base])
                        (mkVer [] []) (mkVer [] []) false (cache_new 64))).
  { constructor; unfold quiet, best, headers_db, keyed; cbn; try (intros ? ? []); [repeat split|discriminate]. }
  destruct (create_grows Blake2b HS _ _ _ H0 Gen_in Cr) as ((H' & C' & _) & Hg). destruct (Hg eq_refl) as (more & D').
  destruct (hi_quiet _ _ H') as (Q1 & _ & Q3 & _). unfold headers_db in D'.
  assert (Cn : now_ (s_confirmed c1) = [BlockHeader_GetHash base]) by (rewrite C'; reflexivity).
  rewrite Cn in E. change (tip_hash [BlockHeader_GetHash base]) with (BlockHeader_GetHash base) in E.
  assert (Th : tget (now_ (s_db c1)) (BlockHeader_GetHash base) = Some base). { rewrite Q3, D'. cbn [tget entry]. rewrite bytes_eqb_refl. reflexivity. }
  rewrite Th in E. cbn [rollback_all n_set n_db committed now_ drop d_blocks] in E. apply Ret_inj in E. subst n.
  replace (mkSet (m_pKernelMMR s) (m_pOutputPMMR s) (m_pRangeProofPMMR s) base) with s by (destruct s; cbn in Hd; rewrite Hd; reflexivity).
  exists s. constructor; cbn [n_chain n_db n_set n_orphans now_ committed]; try reflexivity; try assumption.
  - rewrite C'. reflexivity.
  - constructor; [|exact Logic.I|intros x []|].
    + split; [|split; [|split; [|split; [exact Hd|]]]].
      * constructor; [exact Th|]. rewrite L0. split; cbn [l_outs l_kernels length]; [rewrite G4|rewrite G5]; reflexivity.
      * rewrite L0. destruct R as [R1 R2 R3 R4 R5 R6 R7 R8 R9]. constructor; try assumption.
      * constructor; [intros []|constructor].
      * rewrite L0. split; reflexivity.
    + intros pre suf Eq. symmetry in Eq. apply app_eq_nil in Eq as (-> & ->). exists genesis_sums. split; [reflexivity|]. unfold view. cbn.
      rewrite bytes_eqb_refl. reflexivity.
  - intros Z. contradiction.
  - intros k0 b Z. cbn in Z. discriminate.
  - intros x [].
Qed.
Notation bh := (bhandle pool empty_pool ReconcileBlock Blake2b BAD_BLOCKS env pow_keys verify sums).
Lemma handle_ok fuel e n chain s l r n' : NI n chain s l -> incl (event_headers e) HS -> incl (event_blocks e) BS ->
  bh fuel genesis genesis_sums e n = (r, n') -> exists chain' s' l', NI n' chain' s' l' /\ changes chain chain'.
Proof.
  intros I Ih Ib E. assert (Stay : exists chain' s' l', NI n chain' s' l' /\ changes chain chain') by (exists chain, s, l; split; [exact I|left; reflexivity]).
  destruct e as [now h|now hs|now b|b|now|]; cbn [bhandle event_headers event_blocks] in *.
  - destruct (ProcessSingleHeader _ _ _ _ _ _ _ _) as [(hr, c)|] eqn:Eh; injection E as <- <-; [|exact Stay].
    exists chain, s, l. split; [|left; reflexivity]. apply (NI_grows _ _ _ _ _ I).
    exact (single_grows Blake2b BAD_BLOCKS env pow_keys HS Small _ _ _ _ _ _ (ni_head _ _ _ _ I) (Ih h (or_introl eq_refl)) Eh).
  - destruct (ProcessSyncHeaders _ _ _ _ _ _ _) as (hr, c) eqn:Eh. injection E as <- <-.
    exists chain, s, l. split; [|left; reflexivity]. apply (NI_grows _ _ _ _ _ I).
    exact (sync_grows Blake2b BAD_BLOCKS env pow_keys HS Small _ _ _ _ _ (ni_head _ _ _ _ I) Ih Eh).
  - assert (J : In b BS) by (apply Ib; left; reflexivity). destruct (process_ok _ _ _ _ _ _ _ _ _ I J E) as (c' & s' & l' & I' & M).
    exists c', s', l'. split; [exact I'|exact (moves_changes _ _ _ J M)].
  - assert (J : In b BS) by (apply Ib; left; reflexivity). destruct (internal_ok _ _ _ _ _ _ _ _ I J E) as ((c' & s' & l' & I' & M) & _).
    exists c', s', l'. split; [exact I'|exact (moves_changes _ _ _ J M)].
  - destruct (ProcessNextOrphanBlock _ _ _ _ _ _ _ _ _ _ _) as (r1, n1) eqn:Ep. destruct (next_orphan_ok _ _ _ _ _ _ _ _ I Ep) as (c' & s' & l' & I' & M).
    exists c', s', l'. split; [|exact M]. destruct r1 as [[[]| |]|]; injection E as <- <-; exact I'.
  - destruct (restart _ _ _ _ _ _) as [n1| |] eqn:Er; injection E as <- <-; [|exact Stay|exact Stay]. exists chain, s, l. split; [|left; reflexivity]. exact (restart_ok _ _ _ _ _ I Er).
Qed.
Lemma handle_all_ok fuel es : forall n chain s l rs n', NI n chain s l -> incl (flat_map event_headers es) HS -> incl (flat_map event_blocks es) BS ->
  bhandle_all pool empty_pool ReconcileBlock Blake2b BAD_BLOCKS env pow_keys verify sums fuel genesis genesis_sums es n = Some (rs, n') ->
  exists chain' s' l', NI n' chain' s' l'.
Proof.
  induction es as [|e es IH]; intros n chain s l rs n' I Ih Ib E; cbn [bhandle_all] in E; [injection E as <- <-; eauto|].
  cbn [flat_map] in Ih, Ib. destruct (bh fuel genesis genesis_sums e n) as (r, n1) eqn:Eh.
  destruct (handle_ok fuel e n chain s l r n1 I) as (c1 & s1 & l1 & I1 & _); [intros x J; apply Ih, in_or_app; left; exact J|intros x J; apply Ib, in_or_app; left; exact J|exact Eh|].
  assert (Next : match bhandle_all pool empty_pool ReconcileBlock Blake2b BAD_BLOCKS env pow_keys verify sums fuel genesis genesis_sums es n1 with
                 | Some (rs, n2) => exists chain' s' l', NI n2 chain' s' l' | None => True end).
  { destruct (bhandle_all _ _ _ _ _ _ _ _ _ _ _ _ es n1) as [(rs1, n2)|] eqn:E2; [|exact Logic.I]. refine (IH n1 c1 s1 l1 rs1 n2 I1 _ _ E2).
    - intros x J. apply Ih, in_or_app. right. exact J.
    - intros x J. apply Ib, in_or_app. right. exact J. }
  destruct r as [[x| |]|]; try discriminate; destruct (bhandle_all _ _ _ _ _ _ _ _ _ _ _ _ es n1) as [(rs1, n2)|]; try discriminate; injection E as <- <-; exact Next.
Qed.
End Node.
