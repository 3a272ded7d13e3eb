(** Lemmas for C54. *)
From Verif Require Import Base Bytes FileModel CodecModel ConsensusModel CuckooModel HeaderModel HeaderSpec HeaderProofs HeaderInv HeaderWork LocatorModel LocatorSpec.
Local Open Scope N_scope.

(** * Heights *)
Lemma nth_firstn {A} n : forall (l : list A) i, nth_error (firstn n l) i = if (i <? n)%nat then nth_error l i else None.
Proof.
  induction n as [|n IH]; intros l i; [destruct i; reflexivity|]. destruct l as [|a l]; [destruct i; cbn [firstn nth_error]; destruct (_ <? _)%nat; reflexivity|].
  destruct i as [|i]; [reflexivity|]. cbn [firstn nth_error]. rewrite IH. reflexivity.
Qed.
Definition depth (i : nat) : N := 2 ^ N.of_nat (S i) - 2.
Lemma pow_S i : 2 ^ N.of_nat (S i) = 2 * 2 ^ N.of_nat i.
Proof. rewrite Nat2N.inj_succ, N.pow_succ_r'. reflexivity. Qed.
Lemma pow_pos i : 1 <= 2 ^ N.of_nat i.
Proof. pose proof (N.pow_nonzero 2 (N.of_nat i)). lia. Qed.
Lemma depth_S i : depth (S i) = depth i + 2 ^ N.of_nat (S i).
Proof. unfold depth. rewrite !pow_S. pose proof (pow_pos i). lia. Qed.
Definition enough (h : N) (k : nat) : Prop := (k <= 19)%nat /\ (k = 19%nat \/ h <= depth k) /\ forall i, (i < k)%nat -> depth i < h.
Lemma loop_heights h : forall turns i acc, (i <= 18)%nat -> (19 <= turns + i)%nat -> length acc = i -> (forall j, (j <= i)%nat -> depth j < h) ->
  exists k, (i < k)%nat /\ enough h k /\ locator_loop turns (h - depth i) acc = acc ++ map (fun j => h - depth j) (seq i (k - i)).
Proof.
  induction turns as [|t IH]; intros i acc Hi Ht L D; [lia|]. cbn [locator_loop].
  pose proof (D i ltac:(lia)) as Di. replace (0 <? h - depth i) with true by (symmetry; apply N.ltb_lt; lia).
  assert (LA : nlen (acc ++ [h - depth i]) = N.of_nat (S i)) by (unfold nlen; rewrite app_length; cbn [length]; lia). rewrite LA.
  destruct (N.leb_spec (MAX_LOCATORS - 1) (N.of_nat (S i))) as [B|B].
  - assert (E18 : i = 18%nat) by (unfold MAX_LOCATORS in B; lia). exists 19%nat. split; [lia|]. split.
    + split; [lia|]. split; [left; reflexivity|]. intros j J. apply D. lia.
    + rewrite E18. reflexivity.
  - cbv zeta. destruct (N.ltb_spec (2 ^ N.of_nat (S i)) (h - depth i)) as [C|C].
    + replace (h - depth i - 2 ^ N.of_nat (S i)) with (h - depth (S i)) by (rewrite depth_S; lia).
      destruct (IH (S i) (acc ++ [h - depth i])) as (k & K1 & K2 & K3).
      * unfold MAX_LOCATORS in B. lia.
      * lia.
      * rewrite app_length, L. cbn. lia.
      * intros j J. destruct (Nat.eq_dec j (S i)) as [->|]; [rewrite depth_S; lia | apply D; lia].
      * exists k. split; [lia|]. split; [exact K2|]. rewrite K3, <- app_assoc. f_equal. replace (k - i)%nat with (S (k - S i)) by lia. reflexivity.
    + exists (S i). split; [lia|]. split.
      * split; [lia|]. split; [right; rewrite depth_S; lia|]. intros j J. apply D. lia.
      * replace (S i - i)%nat with 1%nat by lia. reflexivity.
Qed.
Lemma heights_exact h : exists k, enough h k /\ GetLocatorHeights h = map (fun i => h - depth i) (seq 0 k) ++ [0].
Proof.
  unfold GetLocatorHeights. destruct (N.eq_dec h 0) as [->|Z].
  - exists 0%nat. split; [|reflexivity]. split; [lia|]. split; [right; unfold depth; cbn; lia|]. intros i L. lia.
  - destruct (loop_heights h (N.to_nat MAX_LOCATORS) 0 []) as (k & K1 & K2 & K3).
    + lia.
    + cbn. lia.
    + reflexivity.
    + intros j J. replace j with 0%nat by lia. unfold depth. cbn. lia.
    + exists k. split; [exact K2|]. change (depth 0) with 0 in K3. rewrite N.sub_0_r in K3. rewrite K3. rewrite Nat.sub_0_r. reflexivity.
Qed.
Lemma depth_le i j : (i <= j)%nat -> depth i <= depth j.
Proof. induction 1; [lia|]. rewrite depth_S. lia. Qed.
Lemma heights_le h x : In x (GetLocatorHeights h) -> x <= h.
Proof.
  destruct (heights_exact h) as (k & _ & ->). intros I. apply in_app_or in I. destruct I as [I|[<-|[]]]; [|lia].
  apply in_map_iff in I. destruct I as (i & <- & _). lia.
Qed.
(** The list splits at [f] into the heights above it and the highest one not above it, which is near. *)
Lemma split_at h f : f <= h -> exists pre loc post, GetLocatorHeights h = pre ++ loc :: post /\ Forall (fun x => f < x) pre /\ loc <= f /\
  (524286 < h - f \/ f - loc <= h - f).
Proof.
  intros L. destruct (heights_exact h) as (k & (K1 & K2 & K3) & ->).
  assert (G : forall n i, (i + n = k)%nat -> (forall j, (j < i)%nat -> f < h - depth j) ->
    exists pre loc post, map (fun i => h - depth i) (seq i n) ++ [0] = pre ++ loc :: post /\ Forall (fun x => f < x) pre /\ loc <= f /\ (524286 < h - f \/ f - loc <= h - f)).
  { induction n as [|n IH]; intros i E A.
    - exists [], 0, []. repeat split; [constructor | lia|]. assert (i = k) by lia. subst i. destruct K2 as [->|K2].
      + left. pose proof (A 18%nat ltac:(lia)) as C. change (depth 18) with 524286 in C. lia.
      + right. destruct k as [|k]; [change (depth 0) with 0 in K2; lia|]. pose proof (A k ltac:(lia)) as C. rewrite depth_S in K2. unfold depth in *. rewrite pow_S in *. pose proof (pow_pos k). lia.
    - cbn [seq map app]. destruct (N.ltb_spec f (h - depth i)) as [B|B].
      + destruct (IH (S i)) as (pre & loc & post & P1 & P2 & P3 & P4); [lia | intros j J; destruct (Nat.eq_dec j i) as [->|]; [exact B | apply A; lia]|].
        exists ((h - depth i) :: pre), loc, post. rewrite P1. repeat split; auto.
      + exists [], (h - depth i), (map (fun i => h - depth i) (seq (S i) n) ++ [0]). repeat split; [constructor | exact B|]. right.
        pose proof (K3 i ltac:(lia)). destruct i as [|i]; [change (depth 0) with 0 in *; lia|].
        pose proof (A i ltac:(lia)) as C. rewrite depth_S in *. unfold depth in *. rewrite pow_S in *. pose proof (pow_pos i). lia. }
  apply (G k 0%nat); [lia | intros j J; lia].
Qed.

(** * Lookups *)
Lemma node_now s hs : node s hs -> now_ (s_candidate s) = map BlockHeader_GetHash hs /\ now_ (s_db s) = headers_db s.
Proof. intros ((_ & QB & QC & _) & (B & _) & _). rewrite QB, QC. split; [symmetry; exact B | reflexivity]. Qed.
Lemma node_stored s hs h : node s hs -> In h hs -> stored s (BlockHeader_GetHash h) = Some h.
Proof.
  intros (_ & (_ & B) & U & _) I. specialize (B h I). unfold stored.
  destruct (in_db_find _ _ _ B) as [w W]. rewrite W. f_equal. eapply U; [apply db_find_in, W | exact B].
Qed.
Lemma by_height s hs n : node s hs -> GetBlockHeaderByHeight s n = nth_error hs (N.to_nat n).
Proof.
  intros H. pose proof (node_now s hs H) as (E1 & E2). unfold GetBlockHeaderByHeight, GetBlockHeader. rewrite E1, E2.
  rewrite nth_error_map. destruct (nth_error hs (N.to_nat n)) as [h|] eqn:E; [|reflexivity]. cbn [option_map].
  apply (node_stored s hs h H). eapply nth_error_In, E.
Qed.
Lemma last_nth {A} (l : list A) d : l <> [] -> nth_error l (length l - 1) = Some (last l d).
Proof.
  intros H. destruct (exists_last H) as (l' & a & ->). rewrite last_last, app_length. cbn [length]. rewrite nth_error_app2 by lia.
  replace (length l' + 1 - 1 - length l')%nat with 0%nat by lia. reflexivity.
Qed.
Lemma last_map {A B} (f : A -> B) l d d' : l <> [] -> last (map f l) d' = f (last l d).
Proof. intros H. destruct (exists_last H) as (l' & a & ->). rewrite map_app. cbn [map]. rewrite !last_last. reflexivity. Qed.
Lemma last_in {A} (l : list A) d : l <> [] -> In (last l d) l.
Proof. intros H. destruct (exists_last H) as (l' & a & ->). rewrite last_last. apply in_or_app. right. left. reflexivity. Qed.
Lemma header_height s hs : node s hs -> HeaderHeight s = N.of_nat (length hs) - 1.
Proof.
  intros H. pose proof H as (_ & _ & _ & NE & _ & HH). pose proof (node_now s hs H) as (E1 & E2).
  destruct hs as [|g hs0] eqn:Eh; [congruence|]. rewrite <- Eh in *. clear Eh.
  unfold HeaderHeight, GetBlockHeader, tip_hash. rewrite E1, E2, (last_map _ hs g) by exact NE.
  pose proof (node_stored s hs _ H (last_in hs g NE)) as S1. unfold stored in S1. rewrite S1.
  rewrite (HH _ _ (last_nth hs g NE)). destruct hs; [congruence|]. cbn [length]. lia.
Qed.
Lemma skipn_nth {A} (l : list A) : forall k x, nth_error l k = Some x -> skipn k l = x :: skipn (S k) l.
Proof. induction l as [|a l IH]; intros [|k] x E; try discriminate; [injection E as ->; reflexivity|]. cbn [skipn]. rewrite (IH k x E). reflexivity. Qed.
Lemma take_spec r hs : node r hs -> forall n k, N.of_nat k < 4611686018427387905 -> (n <= 512)%nat ->
  take_headers r n (N.of_nat k) = firstn n (skipn k hs).
Proof.
  intros H. pose proof H as (_ & _ & _ & _ & LB & _). induction n as [|n IH]; intros k B L; [reflexivity|]. cbn [take_headers].
  rewrite (by_height r hs) by exact H. rewrite Nat2N.id.
  destruct (nth_error hs k) as [h|] eqn:E.
  - assert (KL : (k < length hs)%nat) by (apply nth_error_Some; congruence).
    unfold add64. rewrite N.mod_small by (change W64 with 18446744073709551616; lia). replace (N.of_nat k + 1) with (N.of_nat (S k)) by lia.
    rewrite IH by lia. rewrite (skipn_nth hs k h E). reflexivity.
  - apply nth_error_None in E. rewrite skipn_all2 by exact E. reflexivity.
Qed.
Lemma find_known r hs hashes c : node r hs -> first_known r hashes c -> FindCommonHeader r hashes = Some c.
Proof.
  intros H (pre & k & post & -> & F & K). pose proof (node_now r hs H) as (_ & E2).
  induction F as [|x pre X F IH]; cbn [app FindCommonHeader]; unfold GetBlockHeader; rewrite E2.
  - unfold stored in K. rewrite K. reflexivity.
  - unfold stored in X. rewrite X. exact IH.
Qed.
Lemma find_unknown r hs hashes : node r hs -> Forall (fun x => stored r x = None) hashes -> FindCommonHeader r hashes = None.
Proof.
  intros H F. pose proof (node_now r hs H) as (_ & E2).
  induction F as [|x pre X F IH]; [reflexivity|]. cbn [FindCommonHeader]. unfold GetBlockHeader. rewrite E2. unfold stored in X. rewrite X. exact IH.
Qed.
Lemma locate_spec r hs hashes c : node r hs -> h_height c < 4611686018427387904 -> first_known r hashes c ->
  LocateHeaders r hashes = firstn 512 (skipn (N.to_nat (h_height c) + 1) hs).
Proof.
  intros H B K. unfold LocateHeaders. rewrite (find_known r hs hashes c H K). cbv zeta.
  pose proof (node_now r hs H) as (E1 & _). rewrite E1. unfold nlen. rewrite map_length. pose proof H as (_ & _ & _ & NE & LB & _).
  assert (1 <= length hs)%nat by (destruct hs; [congruence | cbn; lia]).
  unfold add64. rewrite N.mod_small by (change W64 with 18446744073709551616; lia). set (k := N.to_nat (h_height c)). replace (h_height c + 1) with (N.of_nat (k + 1)) by (subst k; lia).
  rewrite (take_spec r hs H) by (subst k; unfold MAX_BLOCK_HEADERS; lia).
  assert (HW : 4611686018427387904 < W64) by (change W64 with 18446744073709551616; lia).
  rewrite (sub64_small (N.of_nat (length hs)) 1) by lia.
  destruct (N.le_gt_cases (h_height c) (N.of_nat (length hs) - 1)) as [L|L].
  - rewrite sub64_small by lia. unfold MAX_BLOCK_HEADERS.
    destruct (N.le_gt_cases (N.of_nat (length hs) - 1 - h_height c) 512) as [M|M].
    + rewrite N.min_l by exact M. rewrite !firstn_all2; [reflexivity| |]; rewrite skipn_length; subst k; lia.
    + rewrite N.min_r by lia. reflexivity.
  - rewrite (skipn_all2 hs) by (subst k; lia). rewrite !firstn_nil. reflexivity.
Qed.
Lemma locators_spec s hs : node s hs ->
  GetLocators s (HeaderHeight s) = flat_map (fun n => match nth_error hs (N.to_nat n) with Some h => [BlockHeader_GetHash h] | None => [] end)
    (GetLocatorHeights (N.of_nat (length hs) - 1)).
Proof.
  intros H. unfold GetLocators. rewrite (header_height s hs H). apply flat_map_ext. intros n. rewrite (by_height s hs n H). reflexivity.
Qed.

(** * The answer *)
Lemma ask_fork s hs r hs' f : node s hs -> node r hs' -> fork_at f hs r hs' ->
  exists pre loc post, GetLocatorHeights (N.of_nat (length hs) - 1) = pre ++ loc :: post /\ Forall (fun x => N.of_nat f < x) pre /\
    loc <= N.of_nat f /\ (524286 < N.of_nat (length hs) - 1 - N.of_nat f \/ N.of_nat f - loc <= N.of_nat (length hs) - 1 - N.of_nat f) /\
    Ask s r = firstn 512 (skipn (N.to_nat loc + 1) hs').
Proof.
  intros H H' (F1 & F2 & F3 & F4).
  destruct (split_at (N.of_nat (length hs) - 1) (N.of_nat f)) as (pre & loc & post & E & P1 & P2 & P3); [lia|].
  exists pre, loc, post. repeat split; [exact E | exact P1 | exact P2 | exact P3|].
  assert (NL : nth_error hs (N.to_nat loc) = nth_error hs' (N.to_nat loc)).
  { pose proof (f_equal (fun l => nth_error l (N.to_nat loc)) F3) as Q. cbv beta in Q. rewrite !nth_firstn in Q.
    replace (N.to_nat loc <? S f)%nat with true in Q by (symmetry; apply Nat.ltb_lt; lia). exact Q. }
  destruct (nth_error hs' (N.to_nat loc)) as [c|] eqn:C.
  2:{ apply nth_error_None in C. lia. }
  pose proof H' as (_ & _ & _ & _ & LB & HH). pose proof (HH _ _ C) as HC.
  unfold Ask. rewrite (locate_spec r hs' _ c H').
  - rewrite HC. do 3 f_equal. lia.
  - rewrite HC. assert (N.to_nat loc < length hs')%nat by (apply nth_error_Some; congruence). lia.
  - rewrite (locators_spec s hs H), E, flat_map_app. cbn [flat_map]. rewrite NL. cbn [app].
    exists (flat_map (fun n => match nth_error hs (N.to_nat n) with Some h => [BlockHeader_GetHash h] | None => [] end) pre).
    eexists _, _. split; [reflexivity|]. split.
    + apply Forall_forall. intros x I. apply in_flat_map in I. destruct I as (n & I1 & I2). rewrite Forall_forall in P1. specialize (P1 n I1).
      destruct (nth_error hs (N.to_nat n)) as [h|] eqn:En; [|destruct I2]. destruct I2 as [<-|[]]. apply (F4 (N.to_nat n) h); [lia | exact En].
    + apply (node_stored r hs' c H'). eapply nth_error_In, C.
Qed.

(** * Nothing new *)
Section Rounds.
Variable Blake2b : bytes -> bytes.
Variable BAD_BLOCKS : bytes -> bool.
Variable env : Environment.
Variable pow_keys : BlockHeader -> sip.
Notation chunked := (ProcessChunkedSyncHeaders Blake2b env pow_keys).
Notation sync := (ProcessSyncHeaders Blake2b BAD_BLOCKS env pow_keys).

Lemma skip_all l hs : Forall (fun h => on_chain l (h_height h) (BlockHeader_GetHash h) = true) hs -> skip_known l hs = [].
Proof. induction 1 as [|h hs H F IH]; [reflexivity|]. cbn [skip_known]. rewrite H. exact IH. Qed.
Lemma chunk_known now hs s : quiet s -> Forall (fun h => on_chain (best s) (h_height h) (BlockHeader_GetHash h) = true) hs ->
  exists r, chunked now hs s = (r, s).
Proof.
  intros Q F. pose proof Q as (QA & QB & QC & QD & QE). unfold ProcessChunkedSyncHeaders, batch, bind at 1, get at 1.
  destruct hs as [|first rest]; [eexists; cbn; rewrite quiet_end_id by exact Q; reflexivity|].
  unfold best in F. rewrite <- QB in F. rewrite (skip_all _ _ F).
  destruct (negb _); eexists; cbn; rewrite quiet_end_id by exact Q; reflexivity.
Qed.
Lemma chunks_known now hs s : quiet s -> forall room chunk,
  Forall (fun h => on_chain (best s) (h_height h) (BlockHeader_GetHash h) = true) hs ->
  Forall (fun h => on_chain (best s) (h_height h) (BlockHeader_GetHash h) = true) chunk ->
  exists r, chunks Blake2b env pow_keys now room chunk hs s = (r, s).
Proof.
  intros Q. induction hs as [|h hs IH]; intros room chunk F C; cbn [chunks].
  - destruct chunk as [|x chunk]; [eexists; reflexivity|].
    destruct (chunk_known now (rev (x :: chunk)) s Q (Forall_rev C)) as [r E]. unfold bind. rewrite E. destruct r; eexists; reflexivity.
  - inversion F as [|? ? F1 F2]; subst.
    assert (X : exists r, (do status <- chunked now (rev (h :: chunk)); match status with SUCCESS | ALREADY_EXISTS => chunks Blake2b env pow_keys now SYNC_BATCH_SIZE [] hs | x => ret x end) s = (r, s)).
    { assert (C' : Forall (fun h => on_chain (best s) (h_height h) (BlockHeader_GetHash h) = true) (rev (h :: chunk))) by (apply Forall_rev; constructor; assumption).
      destruct (chunk_known now (rev (h :: chunk)) s Q C') as [r E]. unfold bind. rewrite E.
      destruct r as [[]| |]; try (eexists; reflexivity); apply IH; auto; constructor. }
    destruct room as [|[|room]]; [exact X | exact X|]. apply IH; [exact F2 | constructor; assumption].
Qed.
Lemma sync_known now hs s : quiet s -> Forall (fun h => on_chain (best s) (h_height h) (BlockHeader_GetHash h) = true) hs ->
  exists r, sync now hs s = (r, s).
Proof.
  intros Q F. unfold ProcessSyncHeaders. destruct hs as [|front rest]; [eexists; reflexivity|].
  destruct (existsb _ _); [eexists; reflexivity|]. destruct (h_height front =? 0); [eexists; reflexivity|].
  destruct (negb _); [eexists; reflexivity|]. apply chunks_known; [exact Q | exact F | constructor].
Qed.
Lemma nth_in_skipn {A} (l : list A) k n x : In x (firstn n (skipn k l)) -> exists i, (k <= i)%nat /\ (i < k + n)%nat /\ nth_error l i = Some x.
Proof.
  intros I. apply In_nth_error in I. destruct I as (j & J). rewrite nth_firstn in J. destruct (j <? n)%nat eqn:E; [|discriminate]. apply Nat.ltb_lt in E.
  exists (k + j)%nat. split; [lia|]. split; [lia|]. rewrite <- (firstn_skipn k l). rewrite nth_app.
  destruct (Nat.le_gt_cases (length l) k) as [L|L].
  - rewrite skipn_all2 in J by exact L. destruct j; discriminate.
  - rewrite firstn_length_le by lia. replace (k + j <? k)%nat with false by (symmetry; apply Nat.ltb_ge; lia). replace (k + j - k)%nat with j by lia. exact J.
Qed.
Lemma stalls now s hs r hs' f : node s hs -> node r hs' -> fork_at f hs r hs' ->
  Forall (fun x => x + 512 <= N.of_nat f \/ N.of_nat f < x) (GetLocatorHeights (N.of_nat (length hs) - 1)) ->
  exists o, SyncRound Blake2b BAD_BLOCKS env pow_keys now r s = (o, s).
Proof.
  intros H H' F G. destruct (ask_fork s hs r hs' f H H' F) as (pre & loc & post & E & P1 & P2 & P3 & A).
  unfold SyncRound. rewrite A. rewrite E in G. apply Forall_app in G. destruct G as [_ G]. inversion G as [|? ? G1 _]; subst.
  destruct G1 as [G1|G1]; [|lia]. destruct F as (F1 & F2 & F3 & _).
  pose proof H as (Q & (B & _) & _ & _ & _ & HH).
  apply sync_known; [exact Q|]. apply Forall_forall. intros h I. apply nth_in_skipn in I. destruct I as (i & I1 & I2 & I3).
  assert (NL : nth_error hs i = Some h).
  { pose proof (f_equal (fun l => nth_error l i) F3) as Z. cbv beta in Z. rewrite !nth_firstn in Z.
    replace (i <? S f)%nat with true in Z by (symmetry; apply Nat.ltb_lt; lia). rewrite Z. exact I3. }
  rewrite (HH _ _ NL). unfold on_chain. rewrite Nat2N.id, <- B, nth_error_map, NL. cbn [option_map]. apply bytes_eqb_spec. reflexivity.
Qed.

(** * Progress *)
Definition follows (n : nat) (l : list BlockHeader) : Prop := forall i h, nth_error l i = Some h -> h_height h = N.of_nat (n + i).
Lemma bind_ret {A B} (m : M A) (k : A -> M B) s x s' : bind m k s = (Ret x, s') -> exists y s1, m s = (Ret y, s1) /\ k y s1 = (Ret x, s').
Proof. unfold bind. destruct (m s) as [[y| |] s1] eqn:E; intros X; try discriminate. exists y, s1. auto. Qed.
Lemma chunk_new now new s s' x : quiet s -> new <> [] -> N.of_nat (length (best s)) < 4611686018427387904 -> follows (length (best s)) new ->
  chunked now new s = (Ret x, s') -> x = SUCCESS /\ s_orphans s' = s_orphans s.
Proof.
  intros Q NE LB F E. split; [|exact (chunk_orphans _ _ _ _ _ _ _ _ E)]. unfold ProcessChunkedSyncHeaders, batch in E.
  match type of E with (let '(_, _) := ?m s in _) = _ => destruct (m s) as [r1 s1] eqn:E1 end. injection E as -> _.
  unfold bind at 1, get at 1 in E1. destruct new as [|first rest]; [congruence|].
  destruct (negb _) in E1; [discriminate|].
  pose proof Q as (QA & QB & _).
  assert (K : skip_known (now_ (s_candidate s)) (first :: rest) = first :: rest).
  { cbn [skip_known]. unfold on_chain. rewrite (F 0%nat first eq_refl), Nat2N.id, QB, Nat.add_0_r.
    replace (nth_error (committed (s_candidate s)) (length (best s))) with (@None bytes); [reflexivity|]. symmetry. apply nth_error_None. unfold best. lia. }
  rewrite K in E1.
  apply bind_ret in E1. destruct E1 as (? & ? & _ & E1). apply bind_ret in E1. destruct E1 as (? & ? & _ & E1).
  apply bind_ret in E1. destruct E1 as (? & ? & _ & E1). apply bind_ret in E1. destruct E1 as (? & ? & _ & E1).
  apply bind_ret in E1. destruct E1 as (? & ? & _ & E1). injection E1 as <- _. reflexivity.
Qed.
Lemma added_more p l : forall len f f', added Blake2b env len f p l f' -> env <> AUTOMATED_TESTING -> l <> [] -> h_totalDifficulty p < h_totalDifficulty (last l p).
Proof.
  revert p. induction l as [|h l IH]; intros p len f f' A He NE; [congruence|]. cbn [added] in A. destruct A as (_ & _ & A3 & _ & f1 & _ & A).
  specialize (A3 He). destruct l as [|h2 l]; [exact A3|]. specialize (IH h (S len) f1 f' A He ltac:(discriminate)).
  rewrite (last_default (h :: h2 :: l) p h) by discriminate. cbn [last] in IH |- *. cbn in IH. lia.
Qed.
Lemma chunk_append now new s s' x : env <> AUTOMATED_TESTING -> quiet s -> best s <> [] -> new <> [] -> Forall small new ->
  N.of_nat (length (best s)) < 4611686018427387904 -> follows (length (best s)) new -> chunked now new s = (Ret x, s') ->
  x = SUCCESS /\ quiet s' /\ best s' = best s ++ map BlockHeader_GetHash new /\ headers_db s' = rev (map entry new) ++ headers_db s.
Proof.
  intros He Q NB NE Sm LB F E. destruct (chunk_new now new s s' x Q NE LB F E) as [-> O]. split; [reflexivity|].
  destruct (chunk_cases _ _ _ _ _ _ _ _ Q E) as [N _|first front rest H1 H2 H3 B _]; [congruence|].
  destruct new as [|n0 new0]; [congruence|]. injection H1 as <-.
  assert (K : skip_known (best s) (n0 :: new0) = n0 :: new0).
  { cbn [skip_known]. unfold on_chain. rewrite (F 0%nat n0 eq_refl), Nat2N.id, Nat.add_0_r.
    replace (nth_error (best s) (length (best s))) with (@None bytes); [reflexivity|]. symmetry. apply nth_error_None. lia. }
  rewrite K in H3. injection H3 as <- <-.
  assert (HF : h_height n0 = N.of_nat (length (best s))) by (rewrite (F 0%nat n0 eq_refl); f_equal; lia).
  assert (Hw : h_height n0 < W64) by (rewrite HF; change W64 with 18446744073709551616; lia).
  destruct (reorg_ok Blake2b env pow_keys now _ _ _ _ _ _ Q Hw B) as [A _].
  destruct A as [Q' C' D' St (p & len & f & f' & A1 & A2 & A3 & A4 & A5 & A6 & A7 & A8)].
  split; [exact Q'|]. split; [|exact D'].
  assert (L : len = length (best s)). { cbn [added] in A2. destruct A2 as (A2 & _). rewrite HF in A2. lia. }
  assert (Wp : work s = h_totalDifficulty p).
  { unfold work, stored. replace (last (best s) []) with (h_previousBlockHash n0); [rewrite A1; reflexivity|].
    unfold on_chain in H2. rewrite HF in H2. destruct (best s) as [|b0 bl] eqn:Eb; [congruence|]. rewrite <- Eb in *.
    assert (1 <= length (best s))%nat by (rewrite Eb; cbn; lia).
    rewrite sub64_small in H2 by (change W64 with 18446744073709551616; lia).
    replace (N.to_nat (N.of_nat (length (best s)) - 1)) with (length (best s) - 1)%nat in H2 by lia.
    rewrite (last_nth (best s) []) in H2 by congruence. symmetry. apply bytes_eqb_spec. exact H2. }
  assert (MV : negb (h_totalDifficulty (last (n0 :: new0) n0) <=? work s) = true).
  { apply negb_true_iff, N.leb_gt. rewrite Wp. rewrite (last_default (n0 :: new0) n0 p) by discriminate.
    eapply added_more; [exact A2 | exact He | discriminate]. }
  rewrite MV in A8. destruct (A8 eq_refl) as [A9 _]. rewrite A9. rewrite L, firstn_all. reflexivity.
Qed.
Lemma follows_app n a b : follows n (a ++ b) -> follows n a /\ follows (n + length a) b.
Proof.
  intros F. split; intros i h E.
  - apply F. rewrite nth_error_app1; [exact E|]. apply nth_error_Some. congruence.
  - replace (n + length a + i)%nat with (n + (length a + i))%nat by lia. apply F. rewrite nth_error_app2 by lia. replace (length a + i - length a)%nat with i by lia. exact E.
Qed.
Lemma chunks_append now : env <> AUTOMATED_TESTING -> forall hs room chunk s s' x, quiet s -> best s <> [] -> Forall small (rev chunk ++ hs) ->
  N.of_nat (length (best s) + length (rev chunk ++ hs)) < 4611686018427387904 ->
  follows (length (best s)) (rev chunk ++ hs) -> chunks Blake2b env pow_keys now room chunk hs s = (Ret x, s') ->
  quiet s' /\ best s' = best s ++ map BlockHeader_GetHash (rev chunk ++ hs) /\ headers_db s' = rev (map entry (rev chunk ++ hs)) ++ headers_db s.
Proof.
  intros He. induction hs as [|h hs IH]; intros room chunk s s' x Q NB Sm LB F E; cbn [chunks] in E.
  - rewrite app_nil_r in *. destruct chunk as [|c chunk].
    + injection E as _ <-. cbn. rewrite app_nil_r. auto.
    + apply bind_ret in E. destruct E as (y & s1 & E1 & E2). injection E2 as _ <-.
      destruct (chunk_append now (rev (c :: chunk)) s s1 y He Q NB) as (_ & R); auto; [|lia].
      cbn [rev]. intros X. apply app_eq_nil in X. destruct X as [_ X]. discriminate.
  - assert (X : (do status <- chunked now (rev (h :: chunk)); match status with SUCCESS | ALREADY_EXISTS => chunks Blake2b env pow_keys now SYNC_BATCH_SIZE [] hs | x => ret x end) s = (Ret x, s') ->
      quiet s' /\ best s' = best s ++ map BlockHeader_GetHash (rev chunk ++ h :: hs) /\ headers_db s' = rev (map entry (rev chunk ++ h :: hs)) ++ headers_db s).
    { intros X. apply bind_ret in X. destruct X as (y & s1 & E1 & E2).
      replace (rev chunk ++ h :: hs) with (rev (h :: chunk) ++ hs) in * by (cbn [rev]; rewrite <- app_assoc; reflexivity).
      apply follows_app in F. destruct F as [FA FB]. pose proof Sm as Sm0. apply Forall_app in Sm0. destruct Sm0 as [SA SB]. rewrite app_length in LB.
      destruct (chunk_append now (rev (h :: chunk)) s s1 y He Q NB) as (-> & Q1 & B1 & D1); auto.
      - cbn [rev]. intros X. apply app_eq_nil in X. destruct X as [_ X]. discriminate.
      - lia.
      - destruct (IH SYNC_BATCH_SIZE [] s1 s' x Q1) as (Q2 & B2 & D2).
        + rewrite B1. intros X. apply app_eq_nil in X. destruct X as [X _]. contradiction.
        + exact SB.
        + cbn [rev app]. rewrite B1, app_length, map_length. lia.
        + cbn [rev app]. rewrite B1, app_length, map_length. exact FB.
        + exact E2.
        + split; [exact Q2|]. cbn [rev app] in B2, D2. rewrite B2, B1, D2, D1. rewrite !map_app, rev_app_distr, <- !app_assoc. auto. }
    destruct room as [|[|room]]; [exact (X E) | exact (X E)|].
    replace (rev chunk ++ h :: hs) with (rev (h :: chunk) ++ hs) in * by (cbn [rev]; rewrite <- app_assoc; reflexivity).
    exact (IH (S room) (h :: chunk) s s' x Q NB Sm LB F E).
Qed.
Lemma sync_append now hs s s' x : env <> AUTOMATED_TESTING -> quiet s -> best s <> [] -> Forall small hs ->
  N.of_nat (length (best s) + length hs) < 4611686018427387904 -> follows (length (best s)) hs -> sync now hs s = (Ret x, s') ->
  quiet s' /\ best s' = best s ++ map BlockHeader_GetHash hs /\ headers_db s' = rev (map entry hs) ++ headers_db s.
Proof.
  intros He Q NB Sm LB F E. unfold ProcessSyncHeaders in E. destruct hs as [|front rest].
  - injection E as _ <-. cbn. rewrite app_nil_r. auto.
  - destruct (existsb _ _); [discriminate|]. destruct (h_height front =? 0); [discriminate|]. destruct (negb _); [discriminate|].
    exact (chunks_append now He (front :: rest) SYNC_BATCH_SIZE [] s s' x Q NB Sm LB F E).
Qed.

Lemma prefix_fork s hs r hs' more : node s hs -> node r hs' -> hs' = hs ++ more -> fork_at (length hs - 1) hs r hs'.
Proof.
  intros (_ & _ & _ & NE & _) _ ->. assert (1 <= length hs)%nat by (destruct hs; [congruence | cbn; lia]).
  split; [lia|]. split; [rewrite app_length; lia|]. replace (S (length hs - 1)) with (length hs) by lia. split.
  - rewrite firstn_app, firstn_all, Nat.sub_diag. cbn [firstn]. rewrite app_nil_r. reflexivity.
  - intros i h I E. assert (i < length hs)%nat by (apply nth_error_Some; congruence). lia.
Qed.
Lemma ask_prefix s hs r hs' more : node s hs -> node r hs' -> hs' = hs ++ more -> Ask s r = firstn 512 more.
Proof.
  intros H H' E. pose proof H as (_ & _ & _ & NE & _). assert (1 <= length hs)%nat by (destruct hs; [congruence | cbn; lia]).
  destruct (ask_fork s hs r hs' (length hs - 1) H H' (prefix_fork s hs r hs' more H H' E)) as (pre & loc & post & _ & _ & P2 & P3 & ->).
  assert (L : loc = N.of_nat (length hs - 1)) by lia.
  replace (N.to_nat loc + 1)%nat with (length hs) by lia. rewrite E, skipn_app, skipn_all, Nat.sub_diag. reflexivity.
Qed.

Lemma round now s hs r more x s' : env <> AUTOMATED_TESTING -> node s hs -> node r (hs ++ more) -> unique_between s r ->
  SyncRound Blake2b BAD_BLOCKS env pow_keys now r s = (Ret x, s') -> node s' (hs ++ firstn 512 more) /\ unique_between s' r.
Proof.
  intros He H H' U E. unfold SyncRound in E. rewrite (ask_prefix s hs r (hs ++ more) more H H' eq_refl) in E.
  pose proof H as (Q & (B1 & B2) & US & NE & LB & HH). pose proof H' as (Q' & (B1' & B2') & US' & NE' & LB' & HH').
  assert (LM : (length (firstn 512 more) <= length more)%nat) by (rewrite firstn_length; lia). rewrite app_length in LB'.
  assert (LS : length (best s) = length hs) by (rewrite <- B1, map_length; reflexivity).
  assert (F : follows (length (best s)) (firstn 512 more)).
  { intros i h N1. rewrite nth_firstn in N1. destruct (i <? 512)%nat; [|discriminate]. rewrite LS. apply HH'. rewrite nth_error_app2 by lia.
    replace (length hs + i - length hs)%nat with i by lia. exact N1. }
  assert (Sm : Forall small (firstn 512 more)).
  { apply Forall_forall. intros h I1. apply In_nth_error in I1. destruct I1 as (i & I1). pose proof (F i h I1) as Z.
    assert (i < length (firstn 512 more))%nat by (apply nth_error_Some; congruence). unfold small. rewrite Z. lia. }
  destruct (sync_append now (firstn 512 more) s s' x He Q) as (Q1 & C1 & D1); auto.
  { rewrite <- B1. intros Z. apply map_eq_nil in Z. contradiction. }
  { rewrite LS. lia. }
  assert (IM : forall h, In h (firstn 512 more) -> In (entry h) (headers_db r)).
  { intros h I1. apply B2'. apply in_or_app. right. rewrite <- (firstn_skipn 512 more). apply in_or_app. left. exact I1. }
  assert (IN : forall k h, In (k, h) (headers_db s') -> In (k, h) (headers_db s ++ headers_db r)).
  { intros k h I1. rewrite D1 in I1. apply in_app_or in I1. apply in_or_app. destruct I1 as [I1|I1]; [|left; exact I1]. right.
    apply in_rev, in_map_iff in I1. destruct I1 as (y & <- & I1). apply IM, I1. }
  split.
  - split; [exact Q1|]. split; [split|].
    + rewrite map_app, C1, B1. reflexivity.
    + intros h I1. rewrite D1. apply in_app_or in I1. apply in_or_app. destruct I1 as [I1|I1]; [right; apply B2, I1|left].
      apply in_rev. rewrite rev_involutive. apply (in_map entry), I1.
    + split; [|split; [|split]].
      * intros k h h' I1 I2. apply (U k h h'); apply IN; assumption.
      * intros Z. apply app_eq_nil in Z. destruct Z as [Z _]. contradiction.
      * rewrite app_length. lia.
      * intros i h N1. rewrite nth_app in N1. destruct (i <? length hs)%nat eqn:L; [apply HH, N1|]. apply Nat.ltb_ge in L.
        rewrite (F _ _ N1). rewrite LS. f_equal. lia.
  - intros k h h' I1 I2. apply (U k h h').
    + apply in_app_or in I1. destruct I1 as [I1|I1]; [apply IN, I1 | apply in_or_app; right; exact I1].
    + apply in_app_or in I2. destruct I2 as [I2|I2]; [apply IN, I2 | apply in_or_app; right; exact I2].
Qed.
End Rounds.
