(** Calls that fail; coins of a chain. *)
From Coq Require Import Permutation.
From Verif Require Import Base Bytes MMRIndexModel MMRHashModel CodecModel ConsensusModel CuckooModel CacheModel HeaderModel HeaderSpec HeaderProofs HeaderInv
  ValidationModel ValidationSpec UtxoModel UtxoSpec UtxoProofs UtxoRewind UtxoRoots BlockModel BlockSpec BlockHeaders BlockProofs BlockNode.
Local Open Scope N_scope.

Section Fail.
Variable pool : Type.
Variable ReconcileBlock : blockdb -> txhashset -> BlockHeader -> FullBlock -> pool -> outcome unit * pool.
Variable Blake2b : bytes -> bytes.
Variable BAD_BLOCKS : bytes -> bool.
Variable env : Environment.
Variable pow_keys : BlockHeader -> sip.
Variable verify : FullBlock -> outcome unit.
Variable sums : BlockSums -> FullBlock -> outcome BlockSums.
Notation Pbi := (ProcessBlockInternal pool ReconcileBlock Blake2b env verify sums).
Notation Pb := (ProcessBlock pool ReconcileBlock Blake2b BAD_BLOCKS env pow_keys verify sums).

Lemma rollback_idle n n' : idle n -> wframe pool n n' -> same_node n (rollback_all n').
Proof.
  intros (Q & D & S) (F1 & F2 & F3 & _). unfold same_node, rollback_all. cbn. rewrite F1, (quiet_end_id _ Q).
  split; [apply same_stores_refl|]. unfold drop. rewrite F2, F3. destruct (n_db n) as (a, b), (n_set n) as (c, d). cbn in *. split; congruence.
Qed.
Lemma internal_fail fuel b n r n' : idle n -> Pbi fuel b n = (r, n') -> r <> Some (Ret SUCCESS) -> same_node n n'.
Proof.
  intros I E Nr. unfold ProcessBlockInternal, in_batch in E.
  match type of E with context [let '(_, _) := ?m n in _] => set (body := m) in * end.
  destruct (body n) as (r1, n1) eqn:Eb. injection E as <- <-.
  assert (Fail : wframe pool n n1 -> same_node n (rollback_all n1)) by (intros F; exact (rollback_idle n n1 I F)).
  unfold body in Eb. clear body. unfold bbind at 1, bget at 1 in Eb.
  destruct (on_chain (confirmed_now n) _ _); [injection Eb as <- <-; apply Fail, wframe_refl|].
  destruct (tget (d_blocks (view n)) _) as [x|]; [injection Eb as <- <-; apply Fail, wframe_refl|].
  destruct (DetermineBlockStatus fuel n b) as [[| |bs]|]; [| | |injection Eb as <- <-; apply Fail, wframe_refl].
  - destruct (IsOrphan _ _ _); [injection Eb as <- <-; apply Fail, wframe_refl|].
    unfold AddOrphanBlock, bbind, bget, bput, bret in Eb. pose proof (rollback_idle n n I (wframe_refl _ n)) as A.
    destruct (Cached _ _ _).
    + cbn in Eb. destruct (IsOrphan _ _ _); cbn in Eb; injection Eb as <- <-; exact A.
    + destruct (Put _ _ _ _ _) as [c| |]; cbn in Eb; [|injection Eb as <- <-; exact A|injection Eb as <- <-; exact A].
      unfold IsOrphan in Eb. destruct (existsb _ _); cbn in Eb; injection Eb as <- <-; exact A.
  - unfold bbind at 1 in Eb. pose proof (va_frames pool ReconcileBlock Blake2b env verify sums b n) as F1.
    destruct (ValidateAndAddBlock _ _ _ _ _ _ b n) as [[[[]| |]|] n2]; cbn [snd] in F1; try (injection Eb as <- <-; apply Fail, frame_wframe, F1).
    unfold bbind at 1 in Eb. pose proof (cadd_wframe pool b n2) as F2.
    destruct (Confirmed_AddBlock b n2) as [[[[]| |]|] n3]; cbn [snd] in F2;
      try (injection Eb as <- <-; apply Fail; exact (wframe_trans _ _ _ _ (frame_wframe _ _ _ F1) F2)).
    unfold bbind, bget, bput, bret in Eb. injection Eb as <- <-. contradiction.
  - unfold bbind at 1 in Eb. pose proof (reorg_ff pool ReconcileBlock Blake2b env verify sums fuel bs n) as F. unfold ff in F.
    destruct (HandleReorg _ _ _ _ _ _ fuel bs n) as [[[[]| |]|] n2]; cbn [fst snd] in F;
      try (injection Eb as <- <-; apply Fail; destruct F as [(x & F)|F]; [discriminate|exact F]).
    unfold bret in Eb. injection Eb as <- <-. contradiction.
Qed.
End Fail.

(** ** The coins of a chain *)
Lemma spend_perm i : forall o c, nth_error o i = Some (c, true) ->
  Permutation (map fst (filter snd o)) (c :: map fst (filter snd (spend i o))).
Proof.
  induction i as [|i IH]; intros [|(c0, f) o] c E; try discriminate; cbn [nth_error] in E.
  - injection E as -> ->. cbn. reflexivity.
  - cbn [spend filter snd]. destruct f; cbn [map fst]; [|apply IH, E]. rewrite (IH o c E). apply perm_swap.
Qed.
Lemma spends_perm env g h is : forall o o', spends env g h is o o' ->
  Permutation (map c_commitment (map fst (filter snd o))) (map i_commitment is ++ map c_commitment (map fst (filter snd o'))).
Proof.
  induction 1 as [o|x rest i c o o' G N E M S IH]; [reflexivity|]. rewrite (spend_perm i o c N). cbn [map app]. rewrite E, IH. reflexivity.
Qed.
Lemma creates_perm g h os : forall o o', creates g h os o o' ->
  map c_commitment (map fst (filter snd o')) = map c_commitment (map fst (filter snd o)) ++ map o_commitment os.
Proof.
  induction 1 as [o|x rest o o' _ _ IH]; [rewrite app_nil_r; reflexivity|]. rewrite IH, filter_app, !map_app. cbn. rewrite <- app_assoc. reflexivity.
Qed.
Lemma ledger_perm env g l0 chain l : chain_ledger env g l0 chain l ->
  Permutation (map c_commitment (unspent l0) ++ flat_map (fun b => output_commitments (fb_body b)) chain)
              (flat_map (fun b => input_commitments (fb_body b)) chain ++ map c_commitment (unspent l)).
Proof.
  induction 1 as [|chain b l l' _ IH ((o & S & C) & _)]; [cbn; rewrite app_nil_r; reflexivity|].
  rewrite !flat_map_app. cbn [flat_map]. rewrite !app_nil_r, app_assoc, IH. unfold unspent at 2. rewrite (creates_perm _ _ _ _ _ C).
  unfold unspent at 1. rewrite (spends_perm _ _ _ _ _ _ S). unfold input_commitments, output_commitments. rewrite <- !app_assoc. reflexivity.
Qed.

Lemma needed_exact o k : forall height candidate, (0 < k)%nat ->
  needed k o height candidate =
  firstn k (filter (fun x => negb (IsOrphan (fst x) (snd x) o)) (combine (map (fun i => height + N.of_nat i) (seq 0 (length candidate))) candidate)).
Proof.
  intros height candidate. revert height k. induction candidate as [|x rest IH]; intros height k Hk; cbn [needed length seq map combine filter]; [destruct k; reflexivity|].
  rewrite N.add_0_r. cbn [fst snd].
  assert (Sh : map (fun i => height + N.of_nat i) (seq 1 (length rest)) = map (fun i => height + 1 + N.of_nat i) (seq 0 (length rest))).
  { rewrite <- seq_shift, map_map. apply map_ext. intros i. lia. }
  rewrite Sh. destruct (IsOrphan height x o); cbn [negb]; [apply IH, Hk|].
  destruct k as [|[|k]]; [lia|cbn [firstn]; match goal with |- _ = _ :: ?l => destruct l; reflexivity end|]. cbn [firstn]. f_equal. apply (IH (height + 1) (S k)). lia.
Qed.
Lemma common_spec a b k : (exists j, (j <= k)%nat /\ nth j a [] = nth j b []) ->
  nth (common a b k) a [] = nth (common a b k) b [] /\ (common a b k <= k)%nat /\ forall j, (common a b k < j <= k)%nat -> nth j a [] <> nth j b [].
Proof.
  induction k as [|k IH]; intros (j & Hj & Ej); cbn [common].
  - assert (j = 0)%nat by lia. subst j. destruct (bytes_eqb _ _) eqn:Z; (split; [exact Ej|]; split; [lia|intros; lia]).
  - destruct (bytes_eqb (nth (S k) a []) (nth (S k) b [])) eqn:Z.
    + apply bytes_eqb_spec in Z. split; [exact Z|]. split; [lia|intros; lia].
    + apply bytes_eqb_false in Z. destruct IH as (A & B & C). { exists j. split; [|exact Ej]. destruct (Nat.eq_dec j (S k)); [subst; contradiction|lia]. }
      split; [exact A|]. split; [lia|]. intros i Hi. destruct (Nat.eq_dec i (S k)); [subst; exact Z|apply C; lia].
Qed.
Lemma needed_no_orphan k o : forall candidate height x, In x (needed k o height candidate) -> IsOrphan (fst x) (snd x) o = false.
Proof.
  intros candidate. revert k. induction candidate as [|c rest IH]; intros k height x J; cbn [needed] in J; [destruct J|].
  destruct (IsOrphan height c o) eqn:Z; [apply (IH k _ _ J)|]. destruct k as [|[|k]]; cbn [In] in J.
  - destruct J as [<-|[]]. exact Z.
  - destruct J as [<-|[]]. exact Z.
  - destruct J as [<-|J]; [exact Z|apply (IH (S k) _ _ J)].
Qed.
