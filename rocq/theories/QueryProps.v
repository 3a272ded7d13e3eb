(** C66: a node answers a query with what was asked for. *)
From Coq Require Import Ascii String.
From Verif Require Import Base Bytes FileModel TextModel TextSpec KeyPathSpec KeyPathProofs QueryModel QuerySpec QueryProofs.
Local Open Scope N_scope.
Local Open Scope list_scope.

(** * Blocks and headers *)
Section LOOKUP.
Context {Block Header : Type}.
Variable s : Store Block Header.
(** The 64 hexadecimal digits of a hash, in either case, give the block and the header of that hash. *)
Theorem C66_by_hash t h : hex_pairs t h -> length h = 32%nat -> GetBlock s t = s_block s h /\ GetHeader s t = s_header s h.
Proof. intros H L. split; apply lookup_hash; assumption. Qed.
(** The 66 digits of a commitment give the block, and the header, of the confirmed chain at the height recorded for the output; nothing if none is recorded. *)
Theorem C66_by_commitment t c : hex_pairs t c -> length c = 33%nat ->
  (forall height leaf hash, s_position s c = Some (height, leaf) -> nth_error (s_confirmed s) (N.to_nat height) = Some hash ->
     GetHeader s t = s_header s hash /\ (s_header s hash <> None -> GetBlock s t = s_block s hash)) /\
  (s_position s c = None -> GetHeader s t = None /\ GetBlock s t = None).
Proof.
  intros H L. unfold GetHeader, GetBlock. rewrite !(lookup_commitment _ _ _ _ _ H L). unfold GetHeaderByCommitment, GetBlockByCommitment, HashByCommitment. split.
  - intros height leaf hash P E. rewrite P. unfold GetByHeight. assert (Q : (height <? nlen (s_confirmed s)) = true).
    { apply N.ltb_lt. unfold nlen. assert (X : (N.to_nat height < length (s_confirmed s))%nat) by (apply nth_error_Some; rewrite E; discriminate). lia. }
    rewrite Q, E. split; [reflexivity|]. destruct (s_header s hash); [reflexivity|contradiction].
  - intros P. rewrite P. split; reflexivity.
Qed.
(** A height written as usual gives the block of the confirmed chain, and the header of the best header chain, at that height.
    Missing: other ways to write a number, for which it is false, see below. *)
Theorem C66_by_height_partial t n : decimal n t -> n < 2 ^ 64 ->
  at_height (s_confirmed s) (s_block s) n (GetBlock s t) /\ at_height (s_candidate s) (s_header s) n (GetHeader s t).
Proof. intros D L. unfold GetBlock, GetHeader. rewrite !(lookup_height _ _ _ _ _ D L). split; apply by_height. Qed.
(** A hash written with the prefix 0x, which is valid hexadecimal everywhere else, is never found: it is taken for a commitment. *)
Theorem C66_prefixed_hash_refuted t h : hex_pairs t h -> length h = 32%nat -> GetBlock s (text "0x" ++ t) = None /\ GetHeader s (text "0x" ++ t) = None.
Proof. intros H L. split; exact (lookup_prefixed _ _ _ _ _ H L). Qed.
(** Any other text that starts with a number, for instance a hash of which a character is missing, is not refused: it gives the block of that number. *)
Theorem C66_mistyped_refuted n d c rest : decimal n d -> 0 < n < 2 ^ 64 -> digit_value c = None \/ (exists x, digit_value c = Some x /\ 10 <= x) ->
  nlen (d ++ c :: rest) <> 64 -> nlen (d ++ c :: rest) <> 66 -> at_height (s_confirmed s) (s_block s) n (GetBlock s (d ++ c :: rest)).
Proof.
  intros D L C A B. destruct (decimal_chars _ _ D) as (ds & -> & Dg & R & Cn). destruct Cn as [->|[Ne NZ]]; [cbn in R; lia|].
  unfold GetBlock. rewrite (lookup_number _ _ _ _ n A B); [apply by_height|]. rewrite stoull_dec; auto.
  - rewrite R. destruct (N.ltb_spec n (2 ^ 64)); [reflexivity|lia].
  - unfold is_digit_of. destruct C as [->|(x & -> & X)]; [reflexivity|]. apply N.ltb_ge. exact X.
Qed.
End LOOKUP.

(** * Outputs by height *)
Section RANGES.
Context {Block Header : Type}.
Variable block_hash : Block -> bytes.
Variable block_outputs : Block -> list bytes.
Variable max_size : N.
Variable s : Store Block Header.
Notation answer := (GetChainOutputsByHeight block_hash block_outputs max_size s).
(** A range of heights that starts at most one above the last block: the blocks of the confirmed chain from the first to the last height, or to the end of
    the chain, each with those of its outputs for which a position is recorded. Missing: ranges that start further on, for which it is false. *)
Theorem C66_heights_partial q first last : range_query q first last -> first <= last < 2 ^ 64 ->
  s_confirmed s <> [] -> nlen (s_confirmed s) <= max_size < 2 ^ 64 -> first <= nlen (s_confirmed s) ->
  (forall hash, In hash (s_confirmed s) -> s_block s hash <> None) ->
  exists l, answer q = Some l /\ nlen l = N.min (last + 1) (nlen (s_confirmed s)) - first /\
    forall k w, nth_error l k = Some w -> exists hash b, nth_error (s_confirmed s) (N.to_nat first + k) = Some hash /\ s_block s hash = Some b /\
      w_hash w = block_hash b /\ forall c x, In (c, x) (w_outputs w) <-> In c (block_outputs b) /\ s_position s c = Some x.
Proof.
  intros Q L Ne Ms F B. destruct (query_parameters _ _ _ Q) as (P1 & P2); [lia|lia|]. unfold GetChainOutputsByHeight. rewrite P1, P2.
  assert (E : (if (last =? 0) || (last <? first) then first else last) = last).
  { destruct (N.eqb_spec last 0) as [->|_]; cbn [orb]; [lia|]. destruct (N.ltb_spec last first); [lia|reflexivity]. }
  rewrite E. unfold GetOutputsByHeight. assert (G : 1 <= nlen (s_confirmed s)) by (unfold nlen; destruct (s_confirmed s); [contradiction|cbn; lia]).
  set (n := nlen (s_confirmed s)) in *. set (hi := N.min (n - 1) last).
  assert (R : (hi + 2 ^ 64 - first + 1) mod 2 ^ 64 <= max_size).
  { replace (hi + 2 ^ 64 - first + 1) with (hi + 1 - first + 1 * 2 ^ 64) by lia. rewrite N.mod_add by lia. rewrite N.mod_small by lia. lia. }
  destruct (N.ltb_spec max_size ((hi + 2 ^ 64 - first + 1) mod 2 ^ 64)) as [X|_]; [lia|]. clear R.
  assert (A : forall k, (k < N.to_nat (hi + 1 - first))%nat -> exists hash b, nth_error (s_confirmed s) (N.to_nat first + k) = Some hash /\ s_block s hash = Some b /\
    GetBlockWithOutputs block_hash block_outputs s (first + N.of_nat k) =
      Some (mkBWO (block_hash b) (flat_map (fun c => match s_position s c with Some l => [(c, l)] | None => [] end) (block_outputs b)))).
  { intros k K. assert (K2 : first + N.of_nat k < n) by lia. unfold GetBlockWithOutputs, GetBlockByHeight, GetByHeight. fold n. apply N.ltb_lt in K2 as K3. rewrite K3.
    replace (N.to_nat (first + N.of_nat k)) with (N.to_nat first + k)%nat by lia.
    destruct (nth_error (s_confirmed s) (N.to_nat first + k)) as [hash|] eqn:Hn; [|apply nth_error_None in Hn; unfold n, nlen in K2; lia].
    destruct (s_block s hash) as [b|] eqn:Hb; [|exfalso; exact (B hash (nth_error_In _ _ Hn) Hb)]. exists hash, b. split; [reflexivity|]. split; [exact Hb|]. reflexivity. }
  assert (A' : forall k, (k < N.to_nat (hi + 1 - first))%nat -> GetBlockWithOutputs block_hash block_outputs s (first + N.of_nat k) <> None).
  { intros k K. destruct (A k K) as (? & ? & _ & _ & ->). discriminate. }
  eexists. split; [reflexivity|]. split; [unfold nlen at 1; rewrite heights_length by exact A'; lia|].
  intros k w W. assert (K : (k < N.to_nat (hi + 1 - first))%nat).
  { rewrite <- (heights_length block_hash block_outputs s _ first A'). apply nth_error_Some. rewrite W. discriminate. }
  rewrite (heights_nth _ _ _ _ _ _ A' K) in W. destruct (A k K) as (hash & b & Hn & Hb & Eb). rewrite Eb in W. injection W as <-.
  exists hash, b. split; [exact Hn|]. split; [exact Hb|]. split; [reflexivity|]. intros c x. apply in_outputs.
Qed.
(** A range that starts two or more above the last block is not answered with no blocks: it is refused as a bad request, for the room reserved for the
    answer is computed modulo 2^64. *)
Theorem C66_beyond_tip_refuted q first last : range_query q first last -> first <= last < 2 ^ 64 -> s_confirmed s <> [] -> max_size < 2 ^ 63 ->
  nlen (s_confirmed s) < first < 2 ^ 63 -> answer q = None.
Proof.
  intros Q L Ne Ms F. destruct (query_parameters _ _ _ Q) as (P1 & P2); [lia|lia|]. unfold GetChainOutputsByHeight. rewrite P1, P2.
  assert (E : (if (last =? 0) || (last <? first) then first else last) = last).
  { destruct (N.eqb_spec last 0) as [->|_]; cbn [orb]; [lia|]. destruct (N.ltb_spec last first); [lia|reflexivity]. }
  rewrite E. unfold GetOutputsByHeight. assert (G : 1 <= nlen (s_confirmed s)) by (unfold nlen; destruct (s_confirmed s); [contradiction|cbn; lia]).
  set (n := nlen (s_confirmed s)) in *. replace (N.min (n - 1) last) with (n - 1) by lia.
  assert (P : 2 ^ 64 = 2 * 2 ^ 63) by reflexivity. assert (P0 : 0 < 2 ^ 63) by reflexivity. remember (2 ^ 63) as p. rewrite P. rewrite N.mod_small by lia.
  destruct (N.ltb_spec max_size (n - 1 + 2 * p - first + 1)) as [_|X]; [reflexivity|lia].
Qed.
End RANGES.

(** * JSON-RPC *)
Section RPC.
Variable methods : bytes -> option (Request -> Outcome).
(** A request is answered under its id: by what its method builds, by "method not found" if there is none, by "invalid params" or the method's own code if it throws
    those; the method is called once, with that request. Missing: a method that throws an RPCException, for which the id is lost. *)
Theorem C66_rpc_answer_partial j r : is_request j r ->
  (methods (q_method r) = None -> Handle methods (Json j) = (mkResponse (q_id r) (Error METHOD_NOT_FOUND), None)) /\
  (forall m, methods (q_method r) = Some m -> snd (Handle methods (Json j)) = Some r /\
     (forall a, m r = Built a -> fst (Handle methods (Json j)) = mkResponse (q_id r) a) /\
     (m r = ThrewDeserialization -> fst (Handle methods (Json j)) = mkResponse (q_id r) (Error INVALID_PARAMS)) /\
     (forall code, m r = ThrewAPI code -> fst (Handle methods (Json j)) = mkResponse (q_id r) (Error code)) /\
     ((forall id, m r <> ThrewRPC id) -> p_id (fst (Handle methods (Json j))) = q_id r)).
Proof.
  intros H. unfold Handle. rewrite (parse_request _ _ H). split; [intros ->; reflexivity|]. intros m ->. split; [reflexivity|]. cbn [fst].
  split; [intros a ->; reflexivity|]. split; [intros ->; reflexivity|]. split; [intros code ->; reflexivity|]. intros N1.
  destruct (m r) as [| |id| |]; try reflexivity. exfalso. exact (N1 id eq_refl).
Qed.
(** A method is called only for a request, and only the method it names. *)
Theorem C66_rpc_called b r : snd (Handle methods b) = Some r -> exists j, b = Json j /\ is_request j r /\ methods (q_method r) <> None.
Proof.
  unfold Handle. destruct (Request_Parse b) as [r'|id] eqn:E; [|discriminate]. destruct (methods (q_method r')) as [m|] eqn:M; [|discriminate].
  cbn [snd]. intros [= ->]. destruct (parsed_request _ _ E) as (j & -> & R). exists j. split; [reflexivity|]. split; [exact R|]. rewrite M. discriminate.
Qed.
(** Everything else is answered by "invalid request" and calls nothing; an object with an id is answered under it, anything else under null. *)
Theorem C66_rpc_invalid b : (forall j r, b = Json j -> ~ is_request j r) ->
  snd (Handle methods b) = None /\ p_answer (fst (Handle methods b)) = Error INVALID_REQUEST /\
  (forall fields id, b = Json (JObj fields) -> field fields (text "id") id -> p_id (fst (Handle methods b)) = id) /\
  ((forall fields, b <> Json (JObj fields)) -> p_id (fst (Handle methods b)) = JNull).
Proof.
  intros H. unfold Handle. destruct (Request_Parse b) as [r|o] eqn:E.
  { destruct (parsed_request _ _ E) as (j & -> & R). exfalso. exact (H j r eq_refl R). }
  split; [reflexivity|]. split; [reflexivity|]. cbn [fst p_id]. split.
  - intros f id -> F. apply get_field in F. unfold Request_Parse, GetOptionalField in E. change chars with text in E. rewrite F in E.
    destruct id; cbn [isNull] in E; try (injection E as <-; reflexivity);
      (destruct (get f (text "jsonrpc")) as [| | |v| |]; cbn [isNull] in E; try (injection E as <-; reflexivity); destruct (negb _); [injection E as <-; reflexivity|];
       destruct (get f (text "method")) as [| | |m| |]; cbn [isNull] in E; try (injection E as <-; reflexivity); destruct m; [injection E as <-; reflexivity|discriminate]).
  - intros N1. destruct b as [| | |j]; try (injection E as <-; reflexivity). destruct j as [| | | | |f]; try (injection E as <-; reflexivity). exfalso. exact (N1 f eq_refl).
Qed.
(** A method that throws an RPCException, as sending to a wallet with an old slate version does (SendHandler.h:97-99): the answer has no id, so a client cannot tell
    which request failed. *)
Theorem C66_rpc_id_refuted j r m : is_request j r -> methods (q_method r) = Some m -> m r = ThrewRPC None ->
  p_id (fst (Handle methods (Json j))) = JNull /\ q_id r <> JNull.
Proof.
  intros H M E. unfold Handle. rewrite (parse_request _ _ H), M, E. split; [reflexivity|]. destruct H as (f & _ & _ & _ & I & _). exact I.
Qed.
(** A body that is no JSON is not answered by the code of the protocol for that, and a batch, which the protocol allows, is refused whatever is in it. *)
Theorem C66_rpc_parse_error_refuted : p_answer (fst (Handle methods NotJson)) = Error INVALID_REQUEST /\ INVALID_REQUEST <> INVALID_JSON.
Proof. split; [reflexivity|discriminate]. Qed.
Theorem C66_rpc_batch_refuted l : Handle methods (Json (JArr l)) = (mkResponse JNull (Error INVALID_REQUEST), None).
Proof. reflexivity. Qed.
End RPC.

(** * Examples *)
(** A chain of twelve blocks; the hash of block [n] is 32 bytes [n + 100], and it has one output, 33 bytes [n + 100]. *)
Definition ex_hash (n : N) : bytes := repeat (n + 100) 32.
Definition ex_out (n : N) : bytes := repeat (n + 100) 33.
Definition ex_heights : list N := [0; 1; 2; 3; 4; 5; 6; 7; 8; 9; 10; 11].
Definition ex_find (x : bytes) (f : N -> bytes) : option N := find (fun n => bytes_eqb (f n) x) ex_heights.
Definition ex_store : Store N N := mkStore (map ex_hash ex_heights) (map ex_hash ex_heights) (fun h => ex_find h ex_hash) (fun h => ex_find h ex_hash)
  (fun c => option_map (fun n => (n, n)) (ex_find c ex_out)).
(** 010 is read as an octal number: it gives block 8, not block 10; 0x10 and -1 are read as numbers too. *)
Theorem C66_leading_zero_refuted : GetBlock ex_store (text "010") = Some 8 /\ GetBlock ex_store (text "10") = Some 10 /\ GetBlock ex_store (text "0xb") = Some 11 /\
  GetBlock ex_store (text "-18446744073709551615") = Some 1.
Proof. vm_compute. repeat split. Qed.
(** Hash, commitment and height of block 11; its hash without the last character is taken for the number 6, for the text starts with 6f; with 0x it is not found. *)
Example C66_lookup_example : exists t c, hex_pairs t (ex_hash 11) /\ hex_pairs c (ex_out 11) /\ GetBlock ex_store t = Some 11 /\ GetHeader ex_store t = Some 11 /\
  GetBlock ex_store c = Some 11 /\ GetBlock ex_store (text "11") = Some 11 /\ GetBlock ex_store (removelast t) = Some 6 /\ GetBlock ex_store (text "0x" ++ t) = None.
Proof.
  assert (P : forall n, hex_pairs (concat (repeat (text "6f") n)) (repeat 111 n)).
  { induction n as [|n IH]; [constructor|]. cbn. constructor; [reflexivity|left; reflexivity|left; reflexivity|exact IH]. }
  exists (concat (repeat (text "6f") 32)), (concat (repeat (text "6f") 33)). split; [exact (P 32%nat)|]. split; [exact (P 33%nat)|]. vm_compute. repeat split.
Qed.
Definition ex_answer := GetChainOutputsByHeight ex_hash (fun n => [ex_out n]) (2 ^ 57) ex_store.
Example C66_heights_example : range_query (text "start_height=10&end_height=20") 10 20 /\
  ex_answer (text "start_height=10&end_height=20") = Some [mkBWO (ex_hash 10) [(ex_out 10, (10, 10))]; mkBWO (ex_hash 11) [(ex_out 11, (11, 11))]] /\
  ex_answer (text "start_height=12&end_height=20") = Some [] /\ ex_answer (text "start_height=13&end_height=20") = None.
Proof.
  split; [|vm_compute; repeat split]. exists (text "10"), (text "20"). split; [exists [1; 0]|split; [exists [2; 0]|reflexivity]];
    (split; [repeat constructor|split; [reflexivity|right; split; [discriminate|discriminate]]]).
Qed.
(** An output that was spent and made again in a later block, with its commitment (which the rules allow: only unspent outputs must differ): the list of the earlier
    block has it, as unspent and with the height of the later block. *)
Definition ex_again : Store N N := mkStore (map ex_hash ex_heights) (map ex_hash ex_heights) (fun h => ex_find h ex_hash) (fun h => ex_find h ex_hash) (fun c => Some (3, 7)).
Theorem C66_made_again_refuted : GetChainOutputsByHeight ex_hash (fun _ => [ex_out 1]) (2 ^ 57) ex_again (text "start_height=1&end_height=1") =
  Some [mkBWO (ex_hash 1) [(ex_out 1, (3, 7))]].
Proof. vm_compute. reflexivity. Qed.
(** A request, its answer, a method that is not there, and one that throws. *)
Definition ex_request (m : string) : json := JObj [(text "jsonrpc", JStr (text "2.0")); (text "method", JStr (text m)); (text "id", JNum 7)].
Definition ex_methods (m : bytes) : option (Request -> Outcome) :=
  if bytes_eqb m (text "get") then Some (fun _ => Built (Result (JBool true))) else if bytes_eqb m (text "send") then Some (fun _ => ThrewRPC None) else None.
Example C66_rpc_example : is_request (ex_request "get") (mkRequest (JNum 7) (text "get") None) /\
  fst (Handle ex_methods (Json (ex_request "get"))) = mkResponse (JNum 7) (Result (JBool true)) /\
  fst (Handle ex_methods (Json (ex_request "put"))) = mkResponse (JNum 7) (Error METHOD_NOT_FOUND) /\
  fst (Handle ex_methods (Json (ex_request "send"))) = mkResponse JNull (Error INVALID_REQUEST).
Proof.
  split; [|repeat split]. destruct (parsed_request (Json (ex_request "get")) (mkRequest (JNum 7) (text "get") None) eq_refl) as (j & [= <-] & R). exact R.
Qed.

Definition query_theorems := (@C66_by_hash, @C66_by_commitment, @C66_by_height_partial, @C66_prefixed_hash_refuted, @C66_mistyped_refuted, @C66_heights_partial,
  @C66_beyond_tip_refuted, @C66_rpc_answer_partial, @C66_rpc_called, @C66_rpc_invalid, @C66_rpc_id_refuted, @C66_rpc_parse_error_refuted, @C66_rpc_batch_refuted,
  C66_leading_zero_refuted, C66_lookup_example, C66_heights_example, C66_made_again_refuted, C66_rpc_example).
Print Assumptions query_theorems.
