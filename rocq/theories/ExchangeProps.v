(** C40: the transaction exchange. *)
From Verif Require Import Base ExchangeModel ExchangeSpec ExchangeProofs ExchangeMain ToyCurve.
From Coq Require Import Znumtheory.
Open Scope Z_scope.

(** Examples over the small group. *)
Definition toy_ins : list coin := [mkExCoin 60 17; mkExCoin 45 33].
Definition toy_change : list coin := [mkExCoin 30 9].
Definition toy_send := BuildSend toy 1 70 5 toy_ins toy_change 21 40.
Definition toy_sent : ExSlate toy :=
  match toy_send with Ret (s, _) => s | _ => mkSlate toy 0 0 0 0 [] [] end.
Definition toy_context : SlateContext toy :=
  match toy_send with Ret (_, t) => t | _ => mkContext toy 0 0 [] [] toy_sent end.
Definition toy_reply (offset nonce : Z) : ExSlate toy :=
  match Receive toy toy_challenge toy_message toy_sent 77 offset nonce with
  | Ret s => s | _ => toy_sent end.

Definition returns {A} (o : outcome A) : bool := match o with Ret _ => true | _ => false end.
Lemma toy_send_ok : BuildSend toy 1 70 5 toy_ins toy_change 21 40 = Ret (toy_sent, toy_context).
Proof.
  assert (E : returns toy_send = true) by (vm_compute; reflexivity).
  unfold toy_sent, toy_context. fold toy_send. revert E. clear.
  generalize toy_send. intros [[s t]| |] E; try discriminate E. reflexivity.
Qed.
Lemma toy_reply_ok o n :
  returns (Receive toy toy_challenge toy_message toy_sent 77 o n) = true ->
  Receive toy toy_challenge toy_message toy_sent 77 o n = Ret (toy_reply o n).
Proof. unfold toy_reply. destruct (Receive _ _ _ _ _ _ _); intros E; try discriminate E. reflexivity. Qed.
Definition event_code (e : ex_event toy) : Z * Z * Z * Z * Z :=
  match e with
  | Sent _ i n => (0, i, n, 0, 0)
  | Received _ n (r, p, m) => (1, 0, n, r, tv p)
  | Finalized _ i n (r, p, m) => (2, i, n, r, tv p)
  end.

(** When both parties follow the exchange, finalization returns a transaction that spends the
    chosen inputs, creates the change and the payment, and whose kernel every node accepts: the
    aggregated signature is valid for the excess, and the excess is outputs minus inputs minus
    offset.  The premises after the two calls: the values add up, no two commitments coincide,
    and four sums that are random in a real exchange are not zero or equal.
    Missing from the full claim: those random coincidences (see [C40_zero_offset_refuted]). *)
Theorem C40_exchange_partial :
  forall (C : Curve) (challenge : Z -> point C -> Z -> Z) (kernel_message : Z -> Z),
  curve_ok C ->
  forall id amount fee ins change offs ks s1 t blind offr kr s2,
  BuildSend C id amount fee ins change offs ks = Ret (s1, t) ->
  Receive C challenge kernel_message s1 blind offr kr = Ret s2 ->
  0 <= fee ->
  total_value ins = amount + fee + total_value change ->
  NoDup (map (c_commit C) (ins ++ change ++ [mkExCoin amount blind])) ->
  (total_blind change + blind - total_blind ins) mod order C <> 0 ->
  (offs + offr) mod order C <> 0 ->
  map (s_excess C) (x_sigs C s1) <> map (s_excess C) (x_sigs C s2) ->
  exists s3 tx,
    FinalizeWith C challenge kernel_message t s2 = Ret (s3, tx) /\
    kernel_accepted C challenge kernel_message tx /\
    e_inputs C tx = map (c_commit C) ins /\
    e_outputs C tx = map (c_commit C) (change ++ [mkExCoin amount blind]) /\
    e_fee C tx = fee /\
    e_excess C tx =
      mul C (total_blind change + blind - total_blind ins - e_offset C tx) (gen_g C) /\
    e_offset C tx = (offs + offr) mod order C.
Proof. intros; eapply exchange_completes; eassumption. Qed.

(** The first two calls return whenever the keys and nonces are scalars and none of the sums
    that must be a public key is zero. *)
Theorem C40_calls_return :
  forall (C : Curve) (challenge : Z -> point C -> Z -> Z) (kernel_message : Z -> Z),
  curve_ok C ->
  forall id amount fee ins change offs ks blind offr kr,
  (forall c, In c (ins ++ change) -> 0 <= c_blind c < order C) ->
  0 <= blind < order C -> 0 <= offs < order C -> 0 <= offr < order C ->
  0 < ks < order C -> 0 < kr < order C ->
  (total_blind change - total_blind ins - offs) mod order C <> 0 ->
  (blind - offr) mod order C <> 0 ->
  (total_blind change + blind - total_blind ins - (offs + offr)) mod order C <> 0 ->
  (ks + kr) mod order C <> 0 ->
  exists s1 t s2,
    BuildSend C id amount fee ins change offs ks = Ret (s1, t) /\
    Receive C challenge kernel_message s1 blind offr kr = Ret s2.
Proof. intros; apply calls_succeed; assumption. Qed.

(** Whatever slate the other party returns, and whatever is stored, a transaction that
    finalization returns has a kernel every node accepts, with the fee of the sent slate. *)
Theorem C40_finalized_accepted :
  forall (C : Curve) (challenge : Z -> point C -> Z -> Z) (kernel_message : Z -> Z),
  curve_ok C ->
  forall t rcv s tx,
  0 <= x_fee C (t_sent C t) ->
  FinalizeWith C challenge kernel_message t rcv = Ret (s, tx) ->
  kernel_accepted C challenge kernel_message tx /\ e_fee C tx = x_fee C (t_sent C t).
Proof. intros; eapply finalize_sound; eassumption. Qed.

(** In every sequence of calls in which the drawn nonces differ and no slate is finalized
    successfully twice, every nonce signs at most one thing.
    Missing: sequences in which a slate is finalized again, see [C40_nonce_refuted]. *)
Theorem C40_nonce_partial :
  forall (C : Curve) (challenge : Z -> point C -> Z -> Z) (kernel_message : Z -> Z),
  curve_ok C ->
  forall ops,
  NoDup (drawn C (ex_run C challenge kernel_message [] ops)) ->
  NoDup (finalized C (ex_run C challenge kernel_message [] ops)) ->
  nonces_once C (ex_run C challenge kernel_message [] ops).
Proof. intros; apply nonces_once_when; assumption. Qed.

(** The full claim about nonces is false: the stored context is used again when a second reply
    for the same slate is finalized, and the two signatures made with one nonce differ in what
    they sign. *)
Theorem C40_nonce_refuted :
  ~ (forall (C : Curve) (challenge : Z -> point C -> Z -> Z) (kernel_message : Z -> Z),
     curve_ok C -> forall ops,
     NoDup (drawn C (ex_run C challenge kernel_message [] ops)) ->
     nonces_once C (ex_run C challenge kernel_message [] ops)).
Proof.
  intros A.
  set (ops := [OpSend toy 1 70 5 toy_ins toy_change 21 40;
               OpFinalize toy (toy_reply 13 29); OpFinalize toy (toy_reply 13 58)]).
  specialize (A toy toy_challenge toy_message toy_ok ops).
  assert (D : drawn toy (ex_run toy toy_challenge toy_message [] ops) = [40])
    by (vm_compute; reflexivity).
  assert (R : map event_code (ex_run toy toy_challenge toy_message [] ops) =
              [(0, 1, 40, 0, 0); (2, 1, 40, 32, 2); (2, 1, 40, 3, 2)])
    by (vm_compute; reflexivity).
  rewrite D in A. specialize (A ltac:(repeat constructor; intros [])).
  revert A R. generalize (ex_run toy toy_challenge toy_message [] ops). intros l A R.
  destruct l as [|e0 [|e1 [|e2 [|e3 l]]]]; cbn [map] in R; try discriminate R.
  assert (R1 := f_equal (fun l => nth 1 l (0, 0, 0, 0, 0)) R). cbn [nth] in R1.
  assert (R2 := f_equal (fun l => nth 2 l (0, 0, 0, 0, 0)) R). cbn [nth] in R2.
  clear R.
  destruct e1 as [i1 n1|n1 [[r1 p1] m1]|i1 n1 [[r1 p1] m1]]; try discriminate R1.
  destruct e2 as [i2 n2|n2 [[r2 p2] m2]|i2 n2 [[r2 p2] m2]]; try discriminate R2.
  cbn [event_code] in R1, R2. rewrite !pair_equal_spec in R1. rewrite !pair_equal_spec in R2.
  destruct R1 as [[[[_ _] E1] E3] _], R2 as [[[[_ _] E2] E4] _]. subst n1 n2 r1 r2.
  specialize (A _ _ 40 (32, p1, m1) (3, p2, m2)
                (or_intror (or_introl eq_refl)) (or_intror (or_intror (or_introl eq_refl)))
                eq_refl eq_refl).
  rewrite !pair_equal_spec in A. destruct A as [[A _] _]. discriminate A.
Qed.

(** What that costs: from two signatures made with the same key and nonce, the key is the only
    solution of a linear congruence whose coefficients are public (the signatures, the
    challenges, and the signs of the total nonces). *)
Theorem C40_key_recovered :
  forall (C : Curve) (challenge : Z -> point C -> Z -> Z),
  curve_ok C ->
  forall x k P1 R1 m1 P2 R2 m2 r1 s1 r2 s2,
  CalculatePartialSignature C challenge x k P1 R1 m1 = Ret (r1, s1) ->
  CalculatePartialSignature C challenge x k P2 R2 m2 = Ret (r2, s2) ->
  let sgn (R : point C) := if quad_y C R then 1 else -1 in
  let d := sgn R1 * challenge (xcoord C R1) P1 m1 - sgn R2 * challenge (xcoord C R2) P2 m2 in
  let v := sgn R1 * s1 - sgn R2 * s2 in
  (d * x) mod order C = v mod order C /\
  (d mod order C <> 0 ->
   forall y, 0 <= y < order C -> (d * y) mod order C = v mod order C -> y = x).
Proof.
  intros C challenge ok x k P1 R1 m1 P2 R2 m2 r1 s1 r2 s2 E1 E2.
  exact (key_from_two C ok challenge (fun z => z) x k P1 R1 m1 P2 R2 m2 r1 s1 r2 s2 E1 E2).
Qed.

(** If the two random offsets add up to zero, the sender takes the zero for a missing offset,
    puts its own back, and rejects the honest reply. *)
Theorem C40_zero_offset_refuted :
  ~ (forall (C : Curve) (challenge : Z -> point C -> Z -> Z) (kernel_message : Z -> Z),
     curve_ok C ->
     forall id amount fee ins change offs ks s1 t blind offr kr s2,
     BuildSend C id amount fee ins change offs ks = Ret (s1, t) ->
     Receive C challenge kernel_message s1 blind offr kr = Ret s2 ->
     0 <= fee ->
     total_value ins = amount + fee + total_value change ->
     NoDup (map (c_commit C) (ins ++ change ++ [mkExCoin amount blind])) ->
     (total_blind change + blind - total_blind ins) mod order C <> 0 ->
     map (s_excess C) (x_sigs C s1) <> map (s_excess C) (x_sigs C s2) ->
     exists r, FinalizeWith C challenge kernel_message t s2 = Ret r).
Proof.
  intros A.
  destruct (A toy toy_challenge toy_message toy_ok 1 70 5 toy_ins toy_change 21 40 toy_sent toy_context 77 80 29 (toy_reply 80 29))
    as [r E].
  - exact toy_send_ok.
  - apply toy_reply_ok. vm_compute; reflexivity.
  - lia.
  - reflexivity.
  - apply (NoDup_map_inv tv). vm_compute. repeat constructor; cbn; lia.
  - vm_compute; discriminate.
  - intros E. apply (f_equal (map tv)) in E. revert E. vm_compute. discriminate.
  - assert (K : returns (FinalizeWith toy toy_challenge toy_message toy_context (toy_reply 80 29)) = false)
      by (vm_compute; reflexivity).
    rewrite E in K. discriminate K.
Qed.

(** The premises of the theorems hold in a complete exchange over the small group: two inputs,
    one change output, both calls return, the values add up, the commitments differ. *)
Example exchange_premises :
  curve_ok toy /\
  BuildSend toy 1 70 5 toy_ins toy_change 21 40 = Ret (toy_sent, toy_context) /\
  Receive toy toy_challenge toy_message toy_sent 77 13 29 = Ret (toy_reply 13 29) /\
  total_value toy_ins = 70 + 5 + total_value toy_change /\
  NoDup (map (c_commit toy) (toy_ins ++ toy_change ++ [mkExCoin 70 77])) /\
  (total_blind toy_change + 77 - total_blind toy_ins) mod order toy <> 0 /\
  (21 + 13) mod order toy <> 0 /\
  map (s_excess toy) (x_sigs toy toy_sent) <> map (s_excess toy) (x_sigs toy (toy_reply 13 29)) /\
  exists s tx, FinalizeWith toy toy_challenge toy_message toy_context (toy_reply 13 29) = Ret (s, tx).
Proof.
  split; [exact toy_ok|]. split; [exact toy_send_ok|].
  split; [apply toy_reply_ok; vm_compute; reflexivity|].
  split; [reflexivity|]. split.
  { apply (NoDup_map_inv tv). vm_compute. repeat constructor; cbn; lia. }
  split; [vm_compute; discriminate|]. split; [vm_compute; discriminate|]. split.
  { intros E. apply (f_equal (map tv)) in E. revert E. vm_compute. discriminate. }
  assert (K : returns (FinalizeWith toy toy_challenge toy_message toy_context (toy_reply 13 29)) = true)
    by (vm_compute; reflexivity).
  revert K. generalize (FinalizeWith toy toy_challenge toy_message toy_context (toy_reply 13 29)).
  intros [[s tx]| |] K; try discriminate K. eauto.
Qed.

(** A sequence of calls that meets the premises of [C40_nonce_partial]: a payment sent and
    finalized, and one received. *)
Example nonce_premises :
  let l := ex_run toy toy_challenge toy_message []
             [OpSend toy 1 70 5 toy_ins toy_change 21 40; OpReceive toy toy_sent 12 3 4;
              OpFinalize toy (toy_reply 13 29)] in
  length l = 3%nat /\ NoDup (drawn toy l) /\ NoDup (finalized toy l).
Proof. vm_compute. repeat split; repeat constructor; cbn; lia. Qed.

(** The key of the refuting sequence, recovered from the two signatures. *)
Example key_recovered_example :
  t_key toy toy_context = 39 /\
  exists r1 s1 r2 s2,
    CalculatePartialSignature toy toy_challenge 39 40 (tp 2) (tp 69) 57 = Ret (r1, s1) /\
    CalculatePartialSignature toy toy_challenge 39 40 (tp 2) (tp 98) 57 = Ret (r2, s2) /\
    let d := -1 * toy_challenge 32 (tp 2) 57 - -1 * toy_challenge 3 (tp 2) 57 in
    d mod order toy <> 0 /\ (d * 39) mod order toy = (-1 * s1 - -1 * s2) mod order toy.
Proof.
  split; [vm_compute; reflexivity|]. eexists _, _, _, _.
  split; [vm_compute; reflexivity|]. split; [vm_compute; reflexivity|].
  vm_compute. split; [discriminate|reflexivity].
Qed.

Definition exchange_theorems :=
  (@C40_exchange_partial, @C40_calls_return, @C40_finalized_accepted, @C40_nonce_partial,
   @C40_nonce_refuted, @C40_key_recovered, @C40_zero_offset_refuted).
Print Assumptions exchange_theorems.
