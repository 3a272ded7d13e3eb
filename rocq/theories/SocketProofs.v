From Verif Require Import Base SocketModel SocketSpec.

Lemma write_all room m s : s_open s = true -> (length m <= room)%nat ->
  write room m s = mkSocket (s_queue s) (S (s_writes s)) (s_popped s) (s_calls s) (s_wire s ++ [intact m]) true.
Proof.
  intros O' L. unfold write. rewrite O', firstn_all2, skipn_all2 by exact L. cbn [map]. rewrite app_nil_r. reflexivity.
Qed.

(** Between calls: what is written, and what waits in the queue behind the message that is being written. *)
Definition resting (n : nat) (l : list message) (s : socket) : Prop :=
  s_open s = true /\ s_calls s = [] /\ s_popped s = false /\ Forall (fun m => (length m <= n)%nat) l /\
  exists a b, l = a ++ b /\ s_wire s = map intact a /\
    match s_queue s with [] => b = [] /\ s_writes s = 0%nat | m :: q => q = b /\ s_writes s = 1%nat /\ a <> [] end.
Lemma resting_send n l s t m room : resting n l s -> (length m <= room)%nat -> (length m <= n)%nat -> resting n (l ++ [m]) (run (events (Send t m room)) s).
Proof.
  intros (O' & C & P & F & a & b & L & W & Q) R1 R2. destruct s as [q k p c w o]. cbn in *. subst o c p w l.
  cbn [events]. unfold run. cbn [fold_left step s_calls get_call find c_thread s_queue s_writes s_popped s_wire s_open]. rewrite !Nat.eqb_refl.
  cbn [c_pushed c_message c_first drop_call filter c_thread s_queue s_writes s_popped s_calls s_wire s_open get_call find]. rewrite !Nat.eqb_refl.
  cbn [negb c_pushed c_message c_first drop_call filter c_thread s_queue s_writes s_popped s_calls s_wire s_open get_call find]. rewrite ?Nat.eqb_refl.
  cbn [negb c_pushed c_message c_first drop_call filter c_thread s_queue s_writes s_popped s_calls s_wire s_open get_call find]. rewrite ?Nat.eqb_refl. cbn [negb].
  assert (F' : Forall (fun m => (length m <= n)%nat) ((a ++ b) ++ [m])) by (apply Forall_app; split; [exact F | constructor; [exact R2 | constructor]]).
  destruct q as [|x q].
  - destruct Q as [-> ->]. rewrite write_all by (cbn; auto). split; [reflexivity|]. split; [reflexivity|]. split; [reflexivity|]. split; [exact F'|].
    exists (a ++ [m]), []. rewrite !app_nil_r. cbn. rewrite map_app. repeat split; auto. destruct a; discriminate.
  - destruct Q as (-> & -> & NE). split; [reflexivity|]. split; [reflexivity|]. split; [reflexivity|]. split; [exact F'|].
    exists a, (b ++ [m]). rewrite app_assoc. cbn. auto.
Qed.
Lemma resting_sent n l s room : resting n l s -> (n <= room)%nat -> resting n l (run (events (Sent room)) s) /\
  (length (s_queue (run (events (Sent room)) s)) = pred (length (s_queue s)))%nat.
Proof.
  intros (O' & C & P & F & a & b & L & W & Q) R. destruct s as [q k p c w o]. cbn in *. subst o c p w l.
  cbn [events]. unfold run. cbn [fold_left]. set (f := step (Next room)). unfold step. cbn [s_writes s_popped s_queue s_calls s_wire s_open]. unfold f. clear f.
  destruct q as [|x q].
  - destruct Q as [-> ->]. cbn. split; [|reflexivity]. split; [reflexivity|]. split; [reflexivity|]. split; [reflexivity|]. split; [exact F|]. exists a, []. cbn. auto.
  - destruct Q as (-> & -> & NE). cbn [tl]. unfold step. cbn [s_popped negb s_queue s_writes s_calls s_wire s_open].
    destruct b as [|y b].
    + cbn. split; [|reflexivity]. split; [reflexivity|]. split; [reflexivity|]. split; [reflexivity|]. split; [exact F|]. exists a, []. cbn. auto.
    + assert (Y : (length y <= n)%nat) by (apply Forall_app in F; destruct F as [_ F]; inversion F; assumption).
      rewrite write_all by (cbn; auto; lia). cbn. split; [|reflexivity]. split; [reflexivity|]. split; [reflexivity|]. split; [reflexivity|]. split; [exact F|].
      exists (a ++ [y]), b. rewrite <- app_assoc. cbn. rewrite map_app. repeat split; auto. destruct a; discriminate.
Qed.
Lemma run_app h1 h2 s : run (h1 ++ h2) s = run h2 (run h1 s).
Proof. unfold run. apply fold_left_app. Qed.
Lemma resting_run n ws : forall l s, resting n l s -> Forall (roomy n) ws -> resting n (l ++ messages ws) (run (flat_map events ws) s).
Proof.
  induction ws as [|w ws IH]; intros l s R F; [cbn; rewrite app_nil_r; exact R|]. inversion F as [|? ? F1 F2]; subst. cbn [flat_map messages]. rewrite run_app.
  destruct w as [t m room|room].
  - destruct F1 as [F1 F1']. change (messages (Send t m room :: ws)) with ([m] ++ messages ws). rewrite app_assoc.
    apply IH; [apply resting_send; assumption | exact F2].
  - cbn in F1. change (messages (Sent room :: ws)) with (messages ws). apply IH; [apply resting_sent; assumption | exact F2].
Qed.
Lemma drain n room : (n <= room)%nat -> forall k l s, resting n l s -> (length (s_queue s) <= k)%nat ->
  resting n l (run (flat_map events (repeat (Sent room) k)) s) /\ s_queue (run (flat_map events (repeat (Sent room) k)) s) = [].
Proof.
  intros R. induction k as [|k IH]; intros l s H L.
  - cbn. split; [exact H|]. destruct (s_queue s); [reflexivity | cbn in L; lia].
  - change (repeat (Sent room) (S k)) with (Sent room :: repeat (Sent room) k). cbn [flat_map]. rewrite run_app.
    destruct (resting_sent n l s room H R) as [H1 H2]. apply IH; [exact H1 | rewrite H2; lia].
Qed.

(** Nothing is being written, something waits, and no call will start a write. *)
Definition stalled (s : socket) : Prop := s_queue s <> [] /\ s_writes s = 0%nat /\ s_popped s = false /\ Forall (fun c => c_first c = false) (s_calls s).
Lemma stalled_step e s : stalled s -> stalled (step e s) /\ s_wire (step e s) = s_wire s.
Proof.
  intros (Q & W & P & C). assert (ST : stalled s) by (repeat split; assumption).
  assert (GC : forall t c, get_call t (s_calls s) = Some c -> c_first c = false).
  { intros t c E. apply find_some in E. destruct E as [E _]. rewrite Forall_forall in C. exact (C c E). }
  assert (DR : forall t, Forall (fun c => c_first c = false) (drop_call t (s_calls s))).
  { intros t. apply Forall_forall. intros c I. apply filter_In in I. rewrite Forall_forall in C. apply C, I. }
  destruct e; cbn [step].
  - destruct (get_call t (s_calls s)); [auto|]. split; [|reflexivity]. repeat split; cbn; auto. constructor; [|exact C]. cbn. destruct (s_queue s); [congruence | reflexivity].
  - destruct (get_call t (s_calls s)) as [c|] eqn:E; [|auto]. destruct (c_pushed c); [auto|]. split; [|reflexivity]. repeat split; cbn; auto.
    + destruct (s_queue s); discriminate.
    + constructor; [exact (GC t c E) | apply DR].
  - destruct (get_call t (s_calls s)) as [c|] eqn:E; [|auto]. destruct (negb (c_pushed c)); [auto|]. rewrite (GC t c E). split; [|reflexivity]. repeat split; cbn; auto.
  - rewrite W. auto.
  - rewrite P. cbn. auto.
  - split; [|reflexivity]. repeat split; cbn; auto.
Qed.
Lemma stalled_run h : forall s, stalled s -> s_wire (run h s) = s_wire s.
Proof.
  induction h as [|e h IH]; intros s S; [reflexivity|]. cbn [run fold_left]. destruct (stalled_step e s S) as [S1 E]. rewrite <- E. apply (IH _ S1).
Qed.
