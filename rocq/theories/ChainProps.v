(** C16: the header and confirmed chains are gap-free lists that agree up to the fork point. *)
From Verif Require Import Base Bytes FileModel FileProofs ChainModel ChainSpec ChainProofs.
Local Open Scope N_scope.

(** What a chain file holds when the store is opened: nothing, or whole records the first of which is
    the genesis hash; and the chain it stands for. *)
Definition good_file (genesis : bytes) (l : list bytes) : Prop :=
  Forall (fun r => length r = 32%nat) l /\ (l = [] \/ exists t, l = genesis :: t).
Definition opened (genesis : bytes) (l : list bytes) : list bytes := match l with [] => [genesis] | _ => l end.
Definition opened_store (genesis : bytes) (conf cand : list bytes) : store :=
  fun t => let l := opened genesis (match t with CONFIRMED => conf | CANDIDATE => cand end) in mkV l l.

Lemma load_any genesis K l : length genesis = 32%nat -> (K + 2) * 32 < W64 -> 1 <= K -> good_file genesis l -> size l <= K ->
  exists c, Chain_Load (concat l) genesis = Ret c /\ CI genesis K c (mkV (opened genesis l) (opened genesis l)).
Proof.
  intros Hg HK HK1 [F S] Sz. destruct S as [->|[t ->]].
  - apply load_empty; auto.
  - apply load_ok; auto; [|exists t; reflexivity]. revert F. apply Forall_impl. unfold nlen. intros; lia.
Qed.

(** Every sequence of calls gives exactly the results of plain lists of hashes with a committed and a
    current version, including rollbacks, ends of writers and restarts of the process. *)
Theorem C16_chain_store_refines_lists genesis conf cand ops :
  length genesis = 32%nat -> good_file genesis conf -> good_file genesis cand -> Forall cop_ok ops ->
  (N.of_nat (length conf + length cand + length ops) + 3) * 32 < W64 ->
  exists s, Store_Load (concat conf) (concat cand) genesis = Ret s /\
    fst (chain_run genesis (Store_OnInitWrite s) ops) = fst (spec_run (opened_store genesis conf cand) ops).
Proof.
  intros Hg Gf Gd Ho HK. set (K := N.of_nat (length conf + length cand) + 1).
  destruct (load_any genesis K conf Hg ltac:(lia) ltac:(lia) Gf ltac:(unfold size; lia)) as (a & Ea & Ca).
  destruct (load_any genesis K cand Hg ltac:(lia) ltac:(lia) Gd ltac:(unfold size; lia)) as (b & Eb & Cb).
  exists (mkStore a b). split; [unfold Store_Load; rewrite Ea, Eb; reflexivity|].
  apply (run_sim genesis Hg ops K); auto; [lia|]. split; cbn; apply initw_ok; auto.
Qed.

(** The chains never lose their first block, so a common block always exists: no call of the sequence
    is undefined behaviour except a read above the tip of a chain. *)
Theorem C16_no_undefined_behaviour genesis conf cand ops :
  length genesis = 32%nat -> good_file genesis conf -> good_file genesis cand -> Forall cop_ok ops ->
  (N.of_nat (length conf + length cand + length ops) + 3) * 32 < W64 ->
  Forall (fun o => match o with CGetHash _ _ => False | _ => True end) ops ->
  exists s, Store_Load (concat conf) (concat cand) genesis = Ret s /\
    ~ In RUndefined (fst (chain_run genesis (Store_OnInitWrite s) ops)).
Proof.
  intros Hg Gf Gd Ho HK Hn. destruct (C16_chain_store_refines_lists genesis conf cand ops Hg Gf Gd Ho HK) as (s & E & R).
  exists s. split; [exact E|]. rewrite R. clear R E.
  assert (G : forall t, starts genesis (cur (opened_store genesis conf cand t)) /\ starts genesis (com (opened_store genesis conf cand t))).
  { intros t. unfold opened_store. cbn. destruct t; [destruct Gf as [_ [->|[u ->]]]|destruct Gd as [_ [->|[u ->]]]]; cbn; split; eexists; reflexivity. }
  revert G. generalize (opened_store genesis conf cand). clear - Hn.
  induction ops as [|o ops IH]; intros v G; [intros []|]. inversion Hn; subst. cbn [ChainSpec.spec_run].
  assert (A : fst (ChainSpec.spec_step v o) <> RUndefined /\
    forall t, starts genesis (cur (snd (ChainSpec.spec_step v o) t)) /\ starts genesis (com (snd (ChainSpec.spec_step v o) t))).
  { assert (P : forall t l, starts genesis l -> forall u, starts genesis (cur (put v t l u)) /\ starts genesis (com (put v t l u))).
    { intros t l Hl u. specialize (G u). destruct t, u; cbn; tauto. }
    destruct o; cbn [ChainSpec.spec_step]; try (split; [discriminate|exact G]); try contradiction.
    - destruct (_ =? _); (split; [discriminate|]); [|exact G]. apply P. destruct (G t) as [[x ->] _]. exists (x ++ [hash]). reflexivity.
    - destruct (_ <? _); (split; [discriminate|]); [|exact G]. apply P. apply firstn_starts, G.
    - destruct (_ <? _); [|split; [discriminate|exact G]].
      destruct (common_some genesis (cur (v source)) (cur (v destination)) (proj1 (G _)) (proj1 (G _))) as [c ->].
      split; [discriminate|]. apply P. destruct (G destination) as [[x ->] _]. cbn [firstn app]. eexists; reflexivity.
    - destruct (common_some genesis (cur (v source)) (cur (v destination)) (proj1 (G _)) (proj1 (G _))) as [c ->].
      split; [discriminate|]. apply P. destruct (G destination) as [[x ->] _]. cbn [firstn app]. eexists; reflexivity.
    - destruct (block_at _ _) as [x|]; [|split; [discriminate|exact G]]. destruct (_ =? _); (split; [discriminate|]); [|exact G].
      apply P. destruct (G destination) as [[y ->] _]. exists (y ++ [x]). reflexivity.
    - split; [discriminate|]. intros t. cbn. split; apply G.
    - split; [discriminate|]. intros t. cbn. split; apply G.
    - split; [discriminate|]. intros t. cbn. split; apply G.
    - split; [discriminate|]. intros t. cbn. split; apply G.
    - destruct (common_some genesis (cur (v t1)) (cur (v t2)) (proj1 (G _)) (proj1 (G _))) as [c ->]. split; [discriminate|exact G]. }
  destruct (ChainSpec.spec_step v o) as [r v1]. destruct A as [A1 A2]. cbn [fst snd] in *.
  specialize (IH H2 v1 A2). destruct (ChainSpec.spec_run v1 ops) as [rs v2]. cbn [fst] in *. intros [E|E]; congruence || auto.
Qed.

(** After any history in which blocks are only added on top of their parent: asking for the common
    index of two chains returns a height [h] such that they hold the same block at every height up to
    [h] and different blocks at every height above [h] that both reach. *)
Theorem C16_agree_up_to_common_index parent genesis conf cand ops a b :
  length genesis = 32%nat -> good_file genesis conf -> good_file genesis cand ->
  linked parent (opened genesis conf) -> linked parent (opened genesis cand) -> Forall cop_ok ops ->
  adds_linked parent (opened_store genesis conf cand) ops ->
  (N.of_nat (length conf + length cand + length ops) + 3) * 32 < W64 ->
  exists s0 rs s hash h,
    Store_Load (concat conf) (concat cand) genesis = Ret s0 /\ chain_run genesis (Store_OnInitWrite s0) ops = (rs, s) /\
    FindCommonIndex s a b = Ret (hash, h) /\ GetByHeight (GetChain s a) h = Some (hash, h) /\
    (forall k, k <= h -> exists x, GetByHeight (GetChain s a) k = Some (x, k) /\ GetByHeight (GetChain s b) k = Some (x, k)) /\
    (forall k x, h < k < W64 -> GetByHeight (GetChain s a) k = Some (x, k) -> GetByHeight (GetChain s b) k <> Some (x, k)).
Proof.
  intros Hg Gf Gd Lf Ld Ho Ha HK. set (K := N.of_nat (length conf + length cand) + 1).
  destruct (load_any genesis K conf Hg ltac:(lia) ltac:(lia) Gf ltac:(unfold size; lia)) as (ca & Ea & Ca).
  destruct (load_any genesis K cand Hg ltac:(lia) ltac:(lia) Gd ltac:(unfold size; lia)) as (cb & Eb & Cb).
  assert (S0 : SI genesis K (Store_OnInitWrite (mkStore ca cb)) (opened_store genesis conf cand)).
  { split; cbn; apply initw_ok; auto. }
  destruct (run_sim genesis Hg ops K _ _ ltac:(lia) S0 Ho) as [_ S1].
  assert (L1 : LS parent genesis (snd (ChainSpec.spec_run (opened_store genesis conf cand) ops))).
  { apply run_linked; auto. intros t. unfold opened_store. cbn.
    destruct t; [destruct Gf as [_ [->|[u ->]]]|destruct Gd as [_ [->|[u ->]]]]; cbn in *; repeat split; auto; eexists; reflexivity. }
  set (v := snd (ChainSpec.spec_run (opened_store genesis conf cand) ops)) in *.
  set (s := snd (chain_run genesis (Store_OnInitWrite (mkStore ca cb)) ops)) in *.
  set (K' := K + N.of_nat (length ops)) in *.
  assert (HK' : (K' + 2) * 32 < W64) by lia.
  pose proof (findcommon_ok genesis Hg K' HK' s v a b S1) as F.
  destruct (L1 a) as (La & _ & Sa & _). destruct (L1 b) as (Lb & _ & Sb & _).
  destruct (common_some genesis _ _ Sa Sb) as [c Ec]. rewrite Ec in F.
  destruct (common_spec _ _ _ Ec) as [(x & X1 & X2) X3].
  pose proof (SI_get _ _ _ _ a S1) as CIa. pose proof (SI_get _ _ _ _ b S1) as CIb.
  assert (Lc : (c < length (cur (v a)))%nat) by (apply nth_error_Some; congruence).
  pose proof (proj1 (ciS _ _ _ _ CIa)) as Sz. unfold size in Sz.
  pose proof (linked_agree parent _ _ _ _ La Lb X1 X2) as AG.
  exists (mkStore ca cb), (fst (chain_run genesis (Store_OnInitWrite (mkStore ca cb)) ops)), s, (nth c (cur (v a)) []), (N.of_nat c).
  split; [unfold Store_Load; rewrite Ea, Eb; reflexivity|]. split; [subst s; destruct (chain_run genesis _ ops); reflexivity|].
  split; [exact F|]. split; [|split].
  - rewrite (byheight_ok genesis Hg K' HK' _ _ _ CIa) by lia. unfold block_at. rewrite Nnat.Nat2N.id, X1. cbn. erewrite nth_error_nth by exact X1. reflexivity.
  - intros k Hk. rewrite (byheight_ok genesis Hg K' HK' _ _ _ CIa), (byheight_ok genesis Hg K' HK' _ _ _ CIb) by lia. unfold block_at.
    rewrite <- (nth_error_firstn (cur (v a)) (S c)), <- (nth_error_firstn (cur (v b)) (S c)), AG by lia.
    destruct (nth_error (firstn (S c) (cur (v b))) (N.to_nat k)) as [y|] eqn:Ey; [cbn; eauto|].
    apply nth_error_None in Ey. rewrite <- AG, firstn_length in Ey. lia.
  - intros k y Hk. rewrite (byheight_ok genesis Hg K' HK' _ _ _ CIa), (byheight_ok genesis Hg K' HK' _ _ _ CIb) by lia. unfold block_at.
    destruct (nth_error (cur (v a)) (N.to_nat k)) as [u|] eqn:Eu; [|discriminate]. cbn. intros [= <-].
    specialize (X3 (N.to_nat k) u ltac:(lia) Eu). destruct (nth_error (cur (v b)) (N.to_nat k)) as [w|]; cbn; congruence.
Qed.

(** A reorganisation onto any height of another chain makes the first chain equal to the other up to
    that height, whatever the two chains held before. *)
Theorem C16_reorg_copies_source parent genesis conf cand ops a b height :
  length genesis = 32%nat -> good_file genesis conf -> good_file genesis cand ->
  linked parent (opened genesis conf) -> linked parent (opened genesis cand) -> Forall cop_ok ops ->
  adds_linked parent (opened_store genesis conf cand) ops -> height < W64 ->
  (N.of_nat (length conf + length cand + length ops) + 3) * 32 < W64 ->
  exists s0 rs s, Store_Load (concat conf) (concat cand) genesis = Ret s0 /\
    chain_run genesis (Store_OnInitWrite s0) ops = (rs, s) /\
    (height <= ChainModel.m_height (GetChain s a) ->
      exists s', ReorgChain s a b height = Ret s' /\ ChainModel.m_height (GetChain s' b) = height /\
        forall k, k <= height -> GetByHeight (GetChain s' b) k = GetByHeight (GetChain s a) k) /\
    (ChainModel.m_height (GetChain s a) < height -> ReorgChain s a b height = Throw).
Proof.
  intros Hg Gf Gd Lf Ld Ho Ha Hh HK. set (K := N.of_nat (length conf + length cand) + 1).
  destruct (load_any genesis K conf Hg ltac:(lia) ltac:(lia) Gf ltac:(unfold size; lia)) as (ca & Ea & Ca).
  destruct (load_any genesis K cand Hg ltac:(lia) ltac:(lia) Gd ltac:(unfold size; lia)) as (cb & Eb & Cb).
  assert (S0 : SI genesis K (Store_OnInitWrite (mkStore ca cb)) (opened_store genesis conf cand)).
  { split; cbn; apply initw_ok; auto. }
  destruct (run_sim genesis Hg ops K _ _ ltac:(lia) S0 Ho) as [_ S1].
  assert (L1 : LS parent genesis (snd (ChainSpec.spec_run (opened_store genesis conf cand) ops))).
  { apply run_linked; auto. intros t. unfold opened_store. cbn.
    destruct t; [destruct Gf as [_ [->|[u ->]]]|destruct Gd as [_ [->|[u ->]]]]; cbn in *; repeat split; auto; eexists; reflexivity. }
  set (v := snd (ChainSpec.spec_run (opened_store genesis conf cand) ops)) in *.
  set (s := snd (chain_run genesis (Store_OnInitWrite (mkStore ca cb)) ops)) in *.
  set (K' := K + N.of_nat (length ops)) in *.
  assert (HK' : (K' + 2) * 32 < W64) by lia.
  exists (mkStore ca cb), (fst (chain_run genesis (Store_OnInitWrite (mkStore ca cb)) ops)), s.
  split; [unfold Store_Load; rewrite Ea, Eb; reflexivity|]. split; [subst s; destruct (chain_run genesis _ ops); reflexivity|].
  pose proof (reorg_ok genesis Hg K' HK' s v a b height S1 Hh) as [R1 R2].
  pose proof (SI_get _ _ _ _ a S1) as CIa. pose proof (size_pos genesis Hg _ (ciC _ _ _ _ CIa)) as Pa.
  rewrite (ciH _ _ _ _ CIa). cbn [ChainSpec.spec_step] in R1, R2.
  destruct (L1 a) as (La & _ & Sa & _). destruct (L1 b) as (Lb & _ & Sb & _).
  split; intros L.
  - destruct (N.ltb_spec height (size (cur (v a)))) as [L2|L2]; [|lia].
    destruct (common_some genesis _ _ Sa Sb) as [c Ec]. rewrite Ec in R1, R2. cbn [fst snd] in R1, R2.
    destruct (ReorgChain s a b height) as [s'| |] eqn:E; try discriminate R1. cbn [upd snd] in R2.
    rewrite (reorg_linked parent _ _ _ La Lb Ec) in R2 by (unfold size in *; lia).
    exists s'. split; [reflexivity|].
    pose proof (SI_get _ _ _ _ b R2) as CIb. split.
    + rewrite (ciH _ _ _ _ CIb), put_same, firstn_size. lia.
    + intros k Hk. rewrite (byheight_ok genesis Hg K' HK' _ _ _ CIb), (byheight_ok genesis Hg K' HK' _ _ _ CIa) by lia.
      rewrite put_same. unfold block_at. rewrite nth_error_firstn by lia. reflexivity.
  - destruct (N.ltb_spec height (size (cur (v a)))) as [L2|L2]; [lia|]. cbn [fst] in R1.
    destruct (ReorgChain s a b height); cbn in R1; congruence.
Qed.

(** Without that discipline the claim is false: a block added on top of a block that is not its parent
    makes the reported common index lie above a height at which the chains differ. *)
Theorem C16_agreement_needs_linked_adds_refuted :
  exists genesis ops s0 rs s hash h k,
    length genesis = 32%nat /\ Forall cop_ok ops /\ Store_Load [] [] genesis = Ret s0 /\
    chain_run genesis (Store_OnInitWrite s0) ops = (rs, s) /\ FindCommonIndex s CONFIRMED CANDIDATE = Ret (hash, h) /\
    k < h /\ GetByHeight (GetChain s CONFIRMED) k <> GetByHeight (GetChain s CANDIDATE) k.
Proof.
  exists (repeat 0 32), [CAdd CONFIRMED (repeat 1 32) 1; CAdd CANDIDATE (repeat 2 32) 1; CAdd CONFIRMED (repeat 3 32) 2; CAdd CANDIDATE (repeat 3 32) 2].
  do 5 eexists. exists 1. split; [reflexivity|]. split.
  { repeat (constructor; [split; [reflexivity|vm_compute; reflexivity]|]). constructor. }
  split; [vm_compute; reflexivity|]. split; [vm_compute; reflexivity|]. split; [vm_compute; reflexivity|].
  split; [vm_compute; reflexivity|]. vm_compute. discriminate.
Qed.

(** A history that meets the hypotheses: two headers and their blocks, then a header fork of two blocks
    onto which the confirmed chain is reorganised, with a rollback, a commit and a restart. *)
Definition ex_hash (n : N) : bytes := repeat n 32.
Definition ex_parent (x : bytes) : bytes := match x with [] => [] | n :: _ => if n =? 11 then ex_hash 0 else ex_hash (n - 1) end.
Definition ex_ops : list cop :=
  [CAdd CANDIDATE (ex_hash 1) 1; CAdd CANDIDATE (ex_hash 2) 2; CCopy CANDIDATE CONFIRMED 1; CReorgTip CANDIDATE CONFIRMED; CCommit; CNextWriter;
   CRewind CANDIDATE 0; CAdd CANDIDATE (ex_hash 11) 1; CAdd CANDIDATE (ex_hash 12) 2; CAdd CANDIDATE (ex_hash 13) 3;
   CFindCommon CANDIDATE CONFIRMED; CCommit; CReorg CANDIDATE CONFIRMED 2; CGetByHeight CONFIRMED 2; CRollback; CTip CONFIRMED; CRestart; CTip CANDIDATE].
Example C16_example :
  length (ex_hash 0) = 32%nat /\ good_file (ex_hash 0) [] /\ linked ex_parent (opened (ex_hash 0) []) /\ Forall cop_ok ex_ops /\
  adds_linked ex_parent (opened_store (ex_hash 0) [] []) ex_ops /\
  exists s, Store_Load [] [] (ex_hash 0) = Ret s /\
    fst (chain_run (ex_hash 0) (Store_OnInitWrite s) ex_ops) =
    [RDone; RDone; RDone; RDone; RDone; RDone; RDone; RDone; RDone; RDone; RIndex (Some (ex_hash 0, 0)); RDone; RDone;
     RIndex (Some (ex_hash 12, 2)); RDone; RIndex (Some (ex_hash 2, 2)); RDone; RIndex (Some (ex_hash 13, 3))].
Proof.
  split; [reflexivity|]. split; [split; [constructor|left; reflexivity]|]. split; [exact I|]. split.
  { unfold ex_ops. repeat constructor. }
  split.
  { unfold ex_ops. cbn [adds_linked]. repeat (split; [vm_compute; try exact I; try (intros; congruence); try (intros; reflexivity)|]); try exact I.
    all: try (intros _ x [= <-]; reflexivity). }
  eexists. split; [vm_compute; reflexivity|]. vm_compute. reflexivity.
Qed.

Print Assumptions C16_chain_store_refines_lists.
Print Assumptions C16_no_undefined_behaviour.
Print Assumptions C16_agree_up_to_common_index.
Print Assumptions C16_reorg_copies_source.
Print Assumptions C16_agreement_needs_linked_adds_refuted.
