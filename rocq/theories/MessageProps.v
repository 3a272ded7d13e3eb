(** C53: messages between peers. A frame is two bytes that name the network, a type, a length and a
    body. [receive v syncing stream] is what a connection at protocol version [v] hands to the node
    when [stream] has arrived, and how it stands afterwards. *)
From Verif Require Import Base Bytes FileModel SerialModel SerialSpec SerialProofs ConsensusModel CodecModel CodecSpec CodecProofs CodecProps
  MessageModel MessageSpec MessageProofs MessageSizes.
Local Open Scope N_scope.

(** Messages sent one after the other are received as they were sent, in order and nothing else, and
    the bytes that follow are read from where the messages end. Transactions are dropped while the
    node is syncing, and a second handshake always. *)
Theorem C53_stream Blake2b features_of magic1 magic2 v syncing msgs rest : magic1 < 256 /\ magic2 < 256 ->
  Forall (fun m => message_ok Blake2b features_of v m /\ fits v m /\ ordinary m) msgs ->
  receive Blake2b features_of magic1 magic2 v syncing (flat_map (Message_Serialize magic1 magic2 v) msgs ++ rest) =
  (filter (wanted syncing) msgs ++ fst (receive Blake2b features_of magic1 magic2 v syncing rest),
   snd (receive Blake2b features_of magic1 magic2 v syncing rest)).
Proof. intros M. exact (stream_many Blake2b features_of magic1 magic2 M v syncing msgs rest). Qed.

(** However much of such a stream has arrived, a beginning of the messages has been received and the
    connection waits for more. *)
Theorem C53_cut_anywhere Blake2b features_of magic1 magic2 v syncing msgs k : magic1 < 256 /\ magic2 < 256 ->
  Forall (fun m => message_ok Blake2b features_of v m /\ fits v m /\ ordinary m) msgs ->
  exists j, receive Blake2b features_of magic1 magic2 v syncing (firstn k (flat_map (Message_Serialize magic1 magic2 v) msgs)) =
    (filter (wanted syncing) (firstn j msgs), Waiting).
Proof. intros M. exact (cut_stream Blake2b features_of magic1 magic2 M v syncing msgs k). Qed.

(** For any bytes at all: what was handed over when some of them had arrived stays handed over when
    more arrive. *)
Theorem C53_no_retraction Blake2b features_of magic1 magic2 v syncing arrived more : magic1 < 256 /\ magic2 < 256 ->
  exists later, fst (receive Blake2b features_of magic1 magic2 v syncing (arrived ++ more)) =
    fst (receive Blake2b features_of magic1 magic2 v syncing arrived) ++ later.
Proof.
  intros M. destruct (stream_monotone Blake2b features_of magic1 magic2 M v syncing more (S (length (arrived ++ more))) arrived ltac:(lia)) as [l E].
  exists l. unfold receive. rewrite E. f_equal. f_equal. apply (fuel_enough Blake2b features_of magic1 magic2 M); rewrite ?app_length; lia.
Qed.

(** For any bytes at all: an established connection never reads outside a buffer. (It may stop reading for ever: [C53_bad_body_refuted].) *)
Theorem C53_never_crashes Blake2b features_of magic1 magic2 v syncing stream : is_bytes stream ->
  snd (receive Blake2b features_of magic1 magic2 v syncing stream) <> Crashed.
Proof. intros B. exact (never_crashes Blake2b features_of magic1 magic2 v syncing (S (length stream)) stream B). Qed.

(** No body above 10784256 bytes, or above the limit of its type, is waited for or read. *)
Theorem C53_bounded_bodies magic1 magic2 b h b' : MessageHeader_Deserialize magic1 magic2 b = Ret (h, b') ->
  mh_length h <= body_limit (mh_type h) /\ mh_length h <= 10784256.
Proof. intros E. pose proof (header_bounded magic1 magic2 b h b' E). pose proof (limit_small (mh_type h)). lia. Qed.

(** A message that is too long for its type, and a frame of another network, end the connection. *)
Theorem C53_too_long Blake2b features_of magic1 magic2 v syncing m rest : magic1 < 256 /\ magic2 < 256 ->
  message_ok Blake2b features_of v m -> N.of_nat (length (SerializeBody v m)) < W64 -> ~ fits v m ->
  receive Blake2b features_of magic1 magic2 v syncing (Message_Serialize magic1 magic2 v m ++ rest) = ([], Disconnected).
Proof. intros M. exact (too_long Blake2b features_of magic1 magic2 M v syncing m rest). Qed.
Theorem C53_other_network Blake2b features_of magic1 magic2 v syncing b1 b2 rest : magic1 < 256 /\ magic2 < 256 ->
  b1 < 256 -> b2 < 256 -> b1 <> magic1 \/ b2 <> magic2 -> (9 <= length rest)%nat ->
  receive Blake2b features_of magic1 magic2 v syncing (b1 :: b2 :: rest) = ([], Disconnected).
Proof. intros M. exact (other_network Blake2b features_of magic1 magic2 M v syncing b1 b2 rest). Qed.

(** What a node sends by the protocol is short enough. *)
Theorem C53_protocol_messages_fit Blake2b features_of v m : message_ok Blake2b features_of v m -> protocol_size v m -> fits v m.
Proof. exact (protocol_fits Blake2b features_of v m). Qed.

(** Handshakes: the other side's greeting and answer are read as sent, the lower of the two protocol
    versions is used, and a node refuses to connect to itself. *)
Theorem C53_greeting magic1 magic2 self local v h rest : magic1 < 256 /\ magic2 < 256 -> hand_ok h -> fits v (MHand h) ->
  InboundHandshake magic1 magic2 self local (Message_Serialize magic1 magic2 v (MHand h) ++ rest) =
    if hd_nonce h =? self then Throw else Ret (h, N.min local (hd_version h)).
Proof. intros M. exact (hand_received (fun x => x) (fun _ => 0) magic1 magic2 M self local v h rest). Qed.
Theorem C53_answer magic1 magic2 local v s rest : magic1 < 256 /\ magic2 < 256 -> shake_ok s -> fits v (MShake s) ->
  OutboundHandshake magic1 magic2 local (Message_Serialize magic1 magic2 v (MShake s) ++ rest) = Ret (s, N.min local (sh_version s)).
Proof. intros M. exact (shake_received (fun x => x) (fun _ => 0) magic1 magic2 M local v s rest). Qed.

(** False: 57 bytes from a stranger make the reader of a greeting leave its buffer, and 35 bytes the
    reader of the answer (the length of the user agent is near 2^64). *)
Theorem C53_handshake_refuted magic1 magic2 : magic1 < 256 /\ magic2 < 256 ->
  exists greeting answer : bytes, length greeting = 57%nat /\ length answer = 35%nat /\
    (forall self local rest, InboundHandshake magic1 magic2 self local (greeting ++ rest) = Fault) /\
    (forall local rest, OutboundHandshake magic1 magic2 local (answer ++ rest) = Fault).
Proof.
  intros M. exists (header_bytes magic1 magic2 1 46 ++ bad_hand), (header_bytes magic1 magic2 2 24 ++ bad_shake).
  split; [reflexivity|]. split; [reflexivity|]. split; intros; rewrite <- app_assoc.
  - apply (bad_hand_faults (fun x => x) (fun _ => 0)), M.
  - apply (bad_shake_faults (fun x => x) (fun _ => 0)), M.
Qed.

(** False: no error message is ever received. Sending one ends the connection. *)
Theorem C53_error_refuted Blake2b features_of magic1 magic2 v syncing code text rest : magic1 < 256 /\ magic2 < 256 ->
  code < W32 -> N.of_nat (length text) < 2 ^ 63 ->
  receive Blake2b features_of magic1 magic2 v syncing (Message_Serialize magic1 magic2 v (MError code text) ++ rest) = ([], Disconnected).
Proof.
  intros M C L.
  assert (X : N.of_nat (length (SerializeBody v (MError code text))) = 12 + N.of_nat (length text)).
  { cbn [SerializeBody]. unfold AppendVarStr. cbn [AppendLength]. rewrite !app_length, !Append_length. lia. }
  apply too_long; [exact M | exact C | rewrite X; lia|]. unfold fits. rewrite X. cbn [GetMessageType]. change (body_limit _) with 0. lia.
Qed.

(** False: a compact block of allowed weight (753 outputs, 15816 of 40000) is too long for the message
    that carries it. *)
Definition many_outputs (h : BlockHeader) : CompactBlock :=
  mkCompact h 0 (repeat (mkOutput 1 (repeat 2 33) (repeat 3 675)) 753) [mkKernel 1 (mkFee 0 0) 0 (repeat 4 33) (repeat 5 64)] [].
Lemma many_long v h : 539901 <= N.of_nat (length (CompactBlock_Serialize v (many_outputs h))).
Proof.
  unfold CompactBlock_Serialize, many_outputs. cbn [cb_outputs cb_header cb_nonce cb_kernels cb_shortIds]. rewrite !app_length.
  assert (Y : forall n (o : TransactionOutput), N.of_nat (length (flat_map Output_Serialize (repeat o n))) = N.of_nat n * N.of_nat (length (Output_Serialize o))).
  { intros n o. induction n as [|n IH]; [reflexivity|]. cbn [repeat flat_map]. rewrite app_length. lia. }
  pose proof (Y 753%nat (mkOutput 1 (repeat 2 33) (repeat 3 675))) as Z.
  change (N.of_nat (length (Output_Serialize _))) with 717 in Z. change (N.of_nat 753) with 753 in Z. lia.
Qed.
Theorem C53_compact_block_refuted Blake2b features_of magic1 magic2 v syncing h rest : magic1 < 256 /\ magic2 < 256 -> sound_header Blake2b h ->
  exists c, message_ok Blake2b features_of v (MCompactBlock c) /\
    21 * N.of_nat (length (cb_outputs c)) + 3 * (N.of_nat (length (cb_kernels c)) + N.of_nat (length (cb_shortIds c))) <= 40000 /\
    receive Blake2b features_of magic1 magic2 v syncing (Message_Serialize magic1 magic2 v (MCompactBlock c) ++ rest) = ([], Disconnected).
Proof.
  intros M H. exists (many_outputs h).
  assert (OK : message_ok Blake2b features_of v (MCompactBlock (many_outputs h))).
  { split; [exact H|]. split; [reflexivity|]. split; [|split; [|constructor]].
    - apply Forall_forall. intros o I. apply repeat_spec in I. subst o. repeat split; cbn; lia.
    - cbn [cb_kernels many_outputs]. constructor; [|constructor]. unfold kernel_ok, fee_ok. cbn.
      repeat split; try reflexivity; intros; try reflexivity; lia. }
  split; [exact OK|]. split; [vm_compute; discriminate|]. apply too_long; [exact M | exact OK | |].
  - cbn [SerializeBody]. destruct OK as [X (_ & Y & Z & _)]. unfold CompactBlock_Serialize. rewrite !app_length, !Append_length.
    pose proof (header_long Blake2b _ X). pose proof (flat_map_short _ _ 717 _ output_long Y). pose proof (flat_map_short _ _ 114 _ (kernel_long v) Z).
    change (N.of_nat (length (cb_outputs (many_outputs h)))) with 753 in *. change (N.of_nat (length (cb_kernels (many_outputs h)))) with 1 in *.
    change (flat_map ShortId_Serialize (cb_shortIds (many_outputs h))) with (@nil N). cbn [length]. lia.
  - unfold fits. cbn [GetMessageType SerializeBody]. change (body_limit _) with 539212. pose proof (many_long v h). lia.
Qed.

(** False: memory is reserved in proportion to what was received. A body of 49 bytes makes the reader
    of a segment ask for eight times any 64-bit number of bytes. *)
Theorem C53_memory_refuted v n : n < W64 -> exists body b', length body = 49%nat /\
  (let! _ := ReadBigInteger 32 in Segment_reserves) (mkBB 0 body v) = Ret (8 * n, b').
Proof. exact (memory v n). Qed.

(** False: a frame is read to its end. Anything may follow the fields of a message inside its body. *)
Theorem C53_trailing_refuted Blake2b features_of magic1 magic2 v syncing d h extra : magic1 < 256 /\ magic2 < 256 ->
  d < W64 -> h < W64 -> (length extra <= 48)%nat ->
  exists frame, frame = [magic1; magic2] ++ Append 1 3 ++ Append 8 (N.of_nat (16 + length extra)) ++ Append 8 d ++ Append 8 h ++ extra /\
    receive Blake2b features_of magic1 magic2 v syncing frame = ([MPing d h], Waiting).
Proof.
  intros M D H L. eexists. split; [reflexivity|].
  rewrite <- (trailing Blake2b features_of magic1 magic2 M v syncing d h extra D H L). unfold header_bytes. rewrite <- !app_assoc. reflexivity.
Qed.

(** False: a malformed message only ends the connection that it came through. Eleven bytes, the header of a ping without a body, make the
    one thread that serves all connections wait forever for a mutex that it holds. *)
Theorem C53_bad_body_refuted Blake2b features_of magic1 magic2 v syncing rest : magic1 < 256 /\ magic2 < 256 ->
  receive Blake2b features_of magic1 magic2 v syncing ([magic1; magic2] ++ Append 1 3 ++ Append 8 0 ++ rest) = ([], Deadlocked).
Proof.
  intros M. pose proof (round Blake2b features_of magic1 magic2 M) as R. unfold receive.
  specialize (R (length ([magic1; magic2] ++ Append 1 3 ++ Append 8 0 ++ rest)) v syncing 3 0 [] rest eq_refl).
  unfold header_bytes in R. rewrite <- !app_assoc in R. cbn [app] in R |- *. rewrite R; [reflexivity | vm_compute; discriminate | reflexivity].
Qed.
(** True: this takes a body that is shorter than the fields it should have, or holds an impossible value; a stream of messages written by
    the protocol never does it ([C53_stream]), whatever is sent before. *)

Definition example_hash (l : bytes) : bytes := firstn 32 (rev l).
Definition example_messages : list message :=
  [MPing 5 7; MHand (mkHand 3 15 9 (repeat 1 32) 77 (mkSocketAddress (V4 [127; 0; 0; 1]) 3414) (mkSocketAddress (V6 (repeat 2 16)) 13414) [71; 82; 73; 78]);
   MHeaders [example_header; example_header]; MPeerAddrs [mkSocketAddress (V4 [10; 0; 0; 1]) 3414];
   MTransactionKernel (repeat 8 32); MGetHeaders [repeat 1 32; repeat 2 32];
   MOutputSegment (repeat 3 32) (mkSegment (mkSegmentId 9 2) [4] [repeat 5 32] [6] [mkOutputId 0 (repeat 7 33)] [repeat 8 32]) (repeat 9 32)].
Example C53_case :
  Forall (fun m => message_ok example_hash (fun _ => 0) 3 m /\ protocol_size 3 m /\ ordinary m) example_messages /\
  length (filter (wanted true) example_messages) = 5%nat /\ length (filter (wanted false) example_messages) = 6%nat.
Proof.
  split; [|split; reflexivity].
  assert (SH : sound_header example_hash example_header) by (split; [apply C13_case | vm_compute; reflexivity]).
  unfold example_messages.
  repeat (apply Forall_cons; [split; [|split; [|exact I]]|]); try apply Forall_nil; cbn [message_ok protocol_size];
    try (exact I); try (cbn; lia).
  - unfold hand_ok. repeat split; try reflexivity.
  - apply Forall_cons; [exact SH|]. apply Forall_cons; [exact SH|]. apply Forall_nil.
  - repeat constructor.
  - repeat constructor.
  - repeat constructor.
  - split; [reflexivity|]. split; [|reflexivity]. unfold segment_ok. cbn. repeat split; repeat constructor.
Qed.

Definition message_theorems := (C53_stream, C53_cut_anywhere, C53_no_retraction, C53_never_crashes, C53_bounded_bodies, C53_too_long, C53_other_network,
  C53_protocol_messages_fit, C53_greeting, C53_answer, C53_handshake_refuted, C53_error_refuted, C53_compact_block_refuted, C53_memory_refuted,
  C53_trailing_refuted, C53_bad_body_refuted, C53_case).
Print Assumptions message_theorems.
