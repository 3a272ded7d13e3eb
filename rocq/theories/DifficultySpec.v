(** Specification for C26, C28, C30, C43: the consensus rules on headers, over unbounded
    integers and without reference to the code's helpers. *)
From Verif Require Import Base Bytes CodecModel ConsensusModel.
Local Open Scope N_scope.

(** The heights at which the header version goes up by one. *)
Definition fork_heights (env : Environment) : list N :=
  match env with
  | FLOONET => [185040; 298080; 552960; 642240]
  | _ => [262080; 524160; 786240; 1048320]
  end.
Definition version_at (env : Environment) (height : N) : N :=
  1 + N.of_nat (length (filter (fun f => f <=? height) (fork_heights env))).

(** [headers_back db key l]: following previous-hash links in [db] from [key] gives [l],
    newest first. *)
Inductive headers_back (db : bytes -> option BlockHeader) : bytes -> list BlockHeader -> Prop :=
| hb_nil key : headers_back db key []
| hb_cons key h l : db key = Some h -> headers_back db (h_previousBlockHash h) l -> headers_back db key (h :: l).

(** Required difficulty before the fourth fork. [work] is the work of the last 60 blocks and
    [span] the seconds they took; the span is moved two thirds of the way to one hour and kept
    between half an hour and two hours. *)
Definition dma_required (work span : N) : N :=
  let adjusted := N.max 1800 (N.min ((span + 2 * 3600) / 3) 7200) in
  N.max 3 (work * 60 / adjusted).

(** Required difficulty after the fourth fork: [work] of the last block, which took [span]
    seconds; never below [floor]. *)
Definition wtema_required (floor work span : N) : N :=
  N.max floor (work * 14400 / (14400 - 60 + span)).

(** The least required difficulty after the fourth fork. *)
Definition wtema_floor (env : Environment) : N := match env with MAINNET => 16384 | _ => 1856 end.

(** Scaling of the secondary proof: [sum] of the scalings of the last 60 blocks, [count] of
    secondary blocks among them, [pct] the wanted percentage. *)
Definition scaling_required (sum count pct : N) : N :=
  let adjusted := N.max (30 * pct) (N.min ((100 * count + 12 * (60 * pct)) / 13) (120 * pct)) in
  N.max 13 (sum * pct / N.max 1 adjusted).

(** Weight of a graph with 2^bits edges. *)
Definition graph_weight (bits : N) : N := 2 * 2 ^ (bits - 24) * bits.

Definition total_scaling (l : list BlockHeader) : N := fold_right (fun h s => h_scalingDifficulty h + s) 0 l.
Definition count_secondary (l : list BlockHeader) : N :=
  N.of_nat (length (filter (fun h => m_edgeBits (h_proofOfWork h) =? 29) l)).
(** The wanted percentage of secondary proofs at a height: 90 at the start, one less every
    11648 blocks. *)
Definition wanted_secondary (height : N) : N := 90 - height / 11648.
