(** What block processing should do. *)
From Verif Require Import Base Bytes MMRIndexModel CodecModel ConsensusModel HeaderModel HeaderSpec ValidationModel UtxoModel UtxoSpec BlockModel.
Local Open Scope N_scope.

(** Each block names the one before it and is one higher. *)
Fixpoint chained (before : BlockHeader) (chain : list FullBlock) : Prop :=
  match chain with
  | [] => True
  | b :: rest => h_previousBlockHash (fb_header b) = BlockHeader_GetHash before /\ h_height (fb_header b) = h_height before + 1 /\
                 chained (fb_header b) rest
  end.
Definition outputs_of (chain : list FullBlock) : list TransactionOutput := flat_map (fun b => b_outputs (fb_body b)) chain.
Definition kernels_of (chain : list FullBlock) : list TransactionKernel := flat_map (fun b => b_kernels (fb_body b)) chain.
Definition inputs_of (chain : list FullBlock) : list TransactionInput := flat_map (fun b => b_inputs (fb_body b)) chain.

(** What the events bring. *)
Definition event_headers (e : bevent) : list BlockHeader :=
  match e with
  | EHeader _ h => [h] | EHeaders _ hs => hs | EBlock _ b => [fb_header b] | EInternal b => [fb_header b] | ENextOrphan _ => [] | ERestart => []
  end.
Definition event_blocks (e : bevent) : list FullBlock :=
  match e with EBlock _ b => [b] | EInternal b => [b] | _ => [] end.
Definition all_headers (genesis : FullBlock) (es : list bevent) : list BlockHeader := fb_header genesis :: flat_map event_headers es.
Definition all_blocks (es : list bevent) : list FullBlock := flat_map event_blocks es.
(** No two different headers have one hash. *)
Definition no_collision (hs : list BlockHeader) : Prop :=
  forall h h', In h hs -> In h' hs -> BlockHeader_GetHash h = BlockHeader_GetHash h' -> h = h'.
(** Every header states the sizes its chain of blocks leads to (the node does not check this: C47_unchecked_sizes_refuted), and the
    chains are not absurdly long. *)
Definition true_sizes (genesis : FullBlock) (blocks : list FullBlock) : Prop :=
  forall chain b, incl (chain ++ [b]) blocks -> chained (fb_header genesis) (chain ++ [b]) ->
    let outputs := N.of_nat (length (outputs_of (genesis :: chain ++ [b]))) in
    let kernels := N.of_nat (length (kernels_of (genesis :: chain ++ [b]))) in
    h_outputMMRSize (fb_header b) = lidx_position (LeafIndex_At outputs) /\
    h_kernelMMRSize (fb_header b) = lidx_position (LeafIndex_At kernels) /\ outputs < 2 ^ 62 /\ kernels < 2 ^ 62.

Section Sums.
Variable verify : FullBlock -> outcome unit.
Variable sums : BlockSums -> FullBlock -> outcome BlockSums.
(** Every block of a chain is consistent in itself and adds up with the sums of the one before it. *)
Fixpoint chain_sums (s : BlockSums) (chain : list FullBlock) : outcome BlockSums :=
  match chain with [] => Ret s | b :: rest => let* _ := verify b in let* s' := sums s b in chain_sums s' rest end.
End Sums.

Section State.
Variable pool : Type.
(** No call is in progress. *)
Definition idle (n : node pool) : Prop :=
  quiet (n_chain _ n) /\ now_ (n_db _ n) = committed (n_db _ n) /\ now_ (n_set _ n) = committed (n_set _ n).
(** Both chains, headers, header MMR, the database and the output set. *)
Definition same_node (n n' : node pool) : Prop :=
  same_stores (n_chain _ n) (n_chain _ n') /\ n_db _ n' = n_db _ n /\ n_set _ n' = n_set _ n.
Definition confirmed (n : node pool) : list bytes := committed (s_confirmed (n_chain _ n)).
End State.
Arguments idle {pool}. Arguments same_node {pool}. Arguments confirmed {pool}.

(** The genesis block of a network: one coin and one kernel. *)
Definition genesis_ok (genesis : FullBlock) : Prop :=
  length (b_kernels (fb_body genesis)) = 1%nat /\ length (b_outputs (fb_body genesis)) = 1%nat /\ well_formed genesis /\
  h_outputMMRSize (fb_header genesis) = 1 /\ h_kernelMMRSize (fb_header genesis) = 1 /\ h_height (fb_header genesis) = 0.
Section Runs.
(** What a run of the node is given that the node itself does not check: headers with different contents have different hashes
    and plausible heights, blocks have passed the decoder, sizes in headers are true, the genesis block is a genesis block. *)
Definition proper_run (genesis : FullBlock) (es : list bevent) : Prop :=
  genesis_ok genesis /\ no_collision (all_headers genesis es) /\
  Forall (fun h => h_height h < 2 ^ 62) (all_headers genesis es) /\
  Forall well_formed (all_blocks es) /\ true_sizes genesis (all_blocks es).
(** The confirmed chain is replaced only by a longer one that continues it, or by one with strictly more work. *)
Definition improves (genesis : FullBlock) (chain chain' : list FullBlock) : Prop :=
  chain' = chain \/ (exists b, chain' = chain ++ [b]) \/
  h_totalDifficulty (tip (fb_header genesis) chain) < h_totalDifficulty (tip (fb_header genesis) chain').
End Runs.
(** Coins not spent. *)
Definition unspent (l : ledger) : list coin := map fst (filter snd (l_outs l)).
