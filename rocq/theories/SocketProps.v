(** C62: messages handed to a connection are written in order, each once and whole. *)
From Verif Require Import Base SocketModel SocketSpec SocketProofs.

(** If calls do not overlap, and each write takes the whole message at once: what is written is always an initial part of the messages
    handed over, in order and intact, and all of them are written once as many writes have ended. *)
Theorem C62_in_order_partial n ws : Forall (roomy n) ws ->
  (exists written waiting, messages ws = written ++ waiting /\ s_wire (run (flat_map events ws) fresh) = map intact written) /\
  forall room k, (n <= room)%nat -> (length (messages ws) <= k)%nat ->
    s_wire (run (flat_map events (ws ++ repeat (Sent room) k)) fresh) = map intact (messages ws).
Proof.
  intros F. assert (R0 : resting n [] fresh).
  { repeat split; auto. exists [], []. cbn. auto. }
  pose proof (resting_run n ws [] fresh R0 F) as R. cbn [app] in R. split.
  - destruct R as (_ & _ & _ & _ & a & b & L & W & _). exists a, b. auto.
  - intros room k RM K. rewrite flat_map_app, run_app.
    assert (Q : (length (s_queue (run (flat_map events ws) fresh)) <= k)%nat).
    { destruct R as (_ & _ & _ & _ & a & b & L & W & Q). destruct (s_queue _) as [|m q]; [cbn; lia|]. destruct Q as (-> & _ & NE). cbn [length]. rewrite L, app_length in K.
      destruct a; [congruence | cbn [length] in K; lia]. }
    destruct (drain n room RM k _ _ R Q) as [R1 E1]. destruct R1 as (_ & _ & _ & _ & a & b & L & W & Q1). rewrite E1 in Q1. destruct Q1 as [-> _]. rewrite W, L, app_nil_r. reflexivity.
Qed.

(** False if they overlap: a call that sees the queue before the last write has ended, and adds its message after that, leaves the queue
    so that no later message is ever written, by anyone. *)
Definition ping : message := [1; 2; 3]%N.
Definition block : message := [4; 5; 6; 7]%N.
Theorem C62_stall_refuted : exists h, s_wire (run h fresh) = [intact ping] /\ s_queue (run h fresh) = [block] /\
  forall later, s_wire (run later (run h fresh)) = [intact ping].
Proof.
  exists [Check 1 ping; Push 1; Finish 1 9; Check 2 block; Pop; Next 9; Push 2; Finish 2 9]. split; [reflexivity|]. split; [reflexivity|].
  intros later. rewrite stalled_run; [reflexivity|]. split; [discriminate|]. split; [reflexivity|]. split; [reflexivity | constructor].
Qed.
(** False: each message is written once. Two threads that send at the same time make the second message be written twice. *)
Theorem C62_twice_refuted : exists h, s_wire (run h fresh) = [intact ping; intact block; intact block] /\
  length (filter (fun e => match e with Check _ _ => true | _ => false end) h) = 2%nat.
Proof. exists [Check 1 ping; Check 2 block; Push 1; Push 2; Finish 1 9; Finish 2 9; Pop; Next 9]. split; reflexivity. Qed.
(** False even if they do not: a message is written whole. What does not fit into the buffer of the system at once is read from memory that
    was released. *)
Theorem C62_released_refuted t m room : (room < length m)%nat ->
  exists junk, junk <> [] /\ s_wire (run (events (Send t m room)) fresh) = [map Some (firstn room m) ++ junk] /\ Forall (eq None) junk.
Proof.
  intros L. exists (map (fun _ => None) (skipn room m)). split; [|split].
  - intros E. apply map_eq_nil in E. assert (X : length (skipn room m) = 0%nat) by (rewrite E; reflexivity). rewrite skipn_length in X. lia.
  - unfold run, events. cbn [fold_left step fresh s_calls get_call find c_thread s_queue s_writes s_popped s_wire s_open]. rewrite !Nat.eqb_refl.
    cbn [c_pushed c_message c_first drop_call filter c_thread s_queue s_writes s_popped s_calls s_wire s_open get_call find]. rewrite ?Nat.eqb_refl.
    cbn [negb c_pushed c_message c_first drop_call filter c_thread s_queue s_writes s_popped s_calls s_wire s_open get_call find]. rewrite ?Nat.eqb_refl. reflexivity.
  - apply Forall_forall. intros x I. apply in_map_iff in I. destruct I as (y & <- & _). reflexivity.
Qed.

(** The hypotheses are met: three messages, two of them handed over while the first is written. *)
Theorem C62_example : let ws := [Send 1 ping 9; Send 2 block 9; Send 1 [8]%N 9; Sent 9] in
  Forall (roomy 9) ws /\ s_wire (run (flat_map events ws) fresh) = [intact ping; intact block] /\
  s_wire (run (flat_map events (ws ++ repeat (Sent 9) 3)) fresh) = [intact ping; intact block; intact [8]%N].
Proof. cbv zeta. split; [repeat constructor|]. split; reflexivity. Qed.

Definition socket_theorems := (C62_in_order_partial, C62_stall_refuted, C62_twice_refuted, C62_released_refuted, C62_example).
Print Assumptions socket_theorems.
