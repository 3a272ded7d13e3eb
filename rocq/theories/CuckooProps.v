(** Property C25: the proof-of-work verifiers accept only 42-cycles, and always answer.
    [ends] functions below: the header's graph (siphash keyed by the header). *)
From Verif Require Import Base CuckooModel CuckooSpec CuckooProofs.
Local Open Scope N_scope.

(** What a proof accepted by each variant must be. *)
Definition is_proof (variant : pow_variant) (keys : sip) (edgeBits : N) (nonces : list N) : Prop :=
  match variant with
  | Cuckatoo => proof_shape (2 ^ edgeBits) nonces /\
      simple_cycle (cuckatoo_ends keys edgeBits) paired pair_place nonces
  | Cuckaroo => proof_shape (2 ^ edgeBits) nonces /\
      simple_cycle (cuckaroo_ends keys edgeBits) eq (fun x => x) nonces
  | Cuckarood => proof_shape (2 ^ 29) nonces /\
      alternating_cycle (cuckarood_ends keys) eq (fun x => x) nonces
  | Cuckaroom => proof_shape (2 ^ 29) nonces /\
      directed_cycle (cuckaroom_ends keys) eq (fun x => x) nonces
  | Cuckarooz => proof_shape (2 ^ 29) nonces /\
      simple_cycle (cuckarooz_ends keys) eq (fun x => x) nonces
  end.

(** Whatever the header and the nonces, an accepted proof is a 42-cycle. *)
Theorem C25_accepted_is_cycle : forall variant fuel keys edgeBits nonces,
  Validate variant fuel keys edgeBits nonces = Some true ->
  is_proof variant keys edgeBits nonces.
Proof.
  intros variant fuel keys bits nonces H. unfold Validate in H.
  destruct (length nonces =? PROOFSIZE)%nat eqn:E; cbn [negb] in H; [|discriminate].
  apply Nat.eqb_eq in E. unfold PROOFSIZE in E.
  assert (Hok : forall r, is_ok r = Some true -> r = Some POW_OK).
  { intros [c|] Hr; [|discriminate]. destruct c; try discriminate. reflexivity. }
  apply Hok in H. destruct variant; cbn [is_proof].
  - eapply cuckatoo_ok_sound; eauto.
  - eapply cuckaroo_ok_sound; eauto.
  - eapply cuckarood_ok_sound; eauto.
  - eapply cuckaroom_ok_sound; eauto.
  - eapply cuckarooz_ok_sound; eauto.
Qed.

(** Four of the five verifiers answer within 85 iterations of the cycle loop. *)
Theorem C25_verifiers_terminate : forall variant keys edgeBits nonces,
  variant <> Cuckarood ->
  exists answer, Validate variant 85 keys edgeBits nonces = Some answer.
Proof.
  intros variant keys bits nonces Hv. unfold Validate.
  destruct (length nonces =? PROOFSIZE)%nat eqn:E; cbn [negb]; [|eexists; reflexivity].
  apply Nat.eqb_eq in E. unfold PROOFSIZE in E.
  assert (Hok : forall r, r <> None -> exists a, is_ok r = Some a).
  { intros [c|] Hr; [|contradiction]. eexists. reflexivity. }
  apply Hok. destruct variant; [| |contradiction| |].
  - apply cuckatoo_terminates.
  - apply cuckaroo_terminates.
  - unfold verify_cuckaroom. destruct (scan_edges _ _ _); try discriminate.
    destruct (xor_list _ _ =? _); [|discriminate].
    apply follow_room_none; [rewrite map_length; lia|constructor|intros x []|lia|cbn; lia].
  - apply cuckarooz_terminates.
Qed.

(** The Cuckarood verifier (version 2 headers) does not: on the following header keys and
    nonces its loop never ends, whatever the number of iterations allowed.  The edges
    43512636, 391436387 and 460810572 meet at one node, and the last two share both
    endpoints, so the walk leaves edge 43512636 (index 0) and then alternates between the
    other two for ever.  The 39 other edges make the endpoint xors vanish. *)
Definition looping_keys : sip := mkSip 6 2 3 4.
Definition looping_nonces : list N :=
  [43512636; 50000000; 50000001; 50002000; 50002001; 50004000; 50004001; 50006000; 50006001;
   50008000; 50008001; 50010000; 50010001; 50012000; 50012001; 50014000; 50014001; 50016000;
   50016001; 50018000; 50018001; 50020000; 50020001; 50022000; 50022001; 50024000; 50024001;
   50026000; 50026001; 50028000; 50028001; 50030000; 50030001; 50032000; 50032001; 50034001;
   102132170; 152542262; 203832313; 250892889; 391436387; 460810572].

(** The siphash blocks of these 42 nonces, computed once. *)
Definition looping_table : list (N * N) :=
  Eval vm_compute in map (fun e => (e, sipblock 25 looping_keys e)) looping_nonces.
Definition looping_sip (e : N) : N :=
  match find (fun p => fst p =? e) looping_table with Some p => snd p | None => 0 end.
Lemma looping_sip_correct : map (sipblock 25 looping_keys) looping_nonces = map looping_sip looping_nonces.
Proof. vm_compute. reflexivity. Qed.
Lemma looping_sip_in e : In e looping_nonces -> sipblock 25 looping_keys e = looping_sip e.
Proof.
  intros H. pose proof looping_sip_correct as L. revert H L. generalize looping_nonces as l.
  generalize (sipblock 25 looping_keys) as f. intros f l.
  induction l as [|x l IH]; [intros []|]. cbn [map]. intros [->|H] L; injection L as L1 L2; auto.
Qed.
Definition looping_d0 : list N := Eval vm_compute in filter N.even looping_nonces.
Definition looping_d1 : list N := Eval vm_compute in filter N.odd looping_nonces.
Definition looping_uvs (k : nat) : N :=
  let x := looping_sip (nth (k / 4) (if (k mod 4 <? 2)%nat then looping_d0 else looping_d1) 0) in
  if Nat.even k then N.land x NODE1MASK else N.land (N.shiftr x 32) NODE1MASK.

Lemma looping_uvs_correct k : (k < 84)%nat -> rood_uvs looping_keys looping_d0 looping_d1 k = looping_uvs k.
Proof.
  intros Hk. unfold rood_uvs, looping_uvs. cbv zeta. rewrite looping_sip_in; [reflexivity|].
  assert (C : forallb (fun k => existsb (N.eqb (nth (k / 4) (if (k mod 4 <? 2)%nat then looping_d0 else looping_d1) 0))
                                  looping_nonces) (seq 0 84) = true) by (vm_compute; reflexivity).
  rewrite forallb_forall in C. specialize (C k ltac:(apply in_seq; lia)).
  apply existsb_exists in C as (y & C1 & C2). apply N.eqb_eq in C2. rewrite C2. exact C1.
Qed.

Lemma find_other_ext i : forall ks j (g h : nat -> bool),
  (forall k, In k ks -> g k = h k) -> find_other g i ks j = find_other h i ks j.
Proof.
  induction ks as [|k ks IH]; intros j g h H; [reflexivity|]. cbn [find_other].
  rewrite (H k) by (cbn; auto). rewrite (IH k g h), (IH j g h) by (intros; apply H; cbn; auto). reflexivity.
Qed.

Lemma looping_step_correct i : (i < 84)%nat ->
  cuckarood_step (rood_uvs looping_keys looping_d0 looping_d1) i = cuckarood_step looping_uvs i.
Proof.
  intros Hi. unfold cuckarood_step.
  rewrite (find_other_ext i (ks_rood i) i _ (fun k => looping_uvs k =? looping_uvs i)); [reflexivity|].
  intros k Hin. rewrite !looping_uvs_correct; [reflexivity|exact Hi|].
  assert (C : forallb (fun i => forallb (fun k => k <? 84)%nat (ks_rood i)) (seq 0 84) = true) by (vm_compute; reflexivity).
  rewrite forallb_forall in C. specialize (C i ltac:(apply in_seq; lia)). rewrite forallb_forall in C.
  apply Nat.ltb_lt. apply C. exact Hin.
Qed.

Lemma looping_0 : cuckarood_step looping_uvs 0 = inr 82%nat.
Proof. vm_compute. reflexivity. Qed.
Lemma looping_83 : cuckarood_step looping_uvs 83 = inr 81%nat.
Proof. vm_compute. reflexivity. Qed.
Lemma looping_80 : cuckarood_step looping_uvs 80 = inr 82%nat.
Proof. vm_compute. reflexivity. Qed.

Theorem C25_cuckarood_terminates_refuted :
  exists keys edgeBits nonces, forall fuel,
    Validate Cuckarood fuel keys edgeBits nonces = None.
Proof.
  exists looping_keys, 29, looping_nonces. intros fuel. unfold Validate.
  change (negb (length looping_nonces =? PROOFSIZE)%nat) with false. cbv iota.
  unfold verify_cuckarood.
  assert (Hs : rood_scan None looping_nonces [] [] = (POW_OK, (looping_d0, looping_d1)))
    by (vm_compute; reflexivity).
  rewrite Hs. cbv zeta.
  assert (Hu : map (fun e => N.land (sipblock 25 looping_keys e) NODE1MASK) looping_nonces =
               map (fun e => N.land (looping_sip e) NODE1MASK) looping_nonces).
  { apply map_ext_in. intros e He. rewrite (looping_sip_in e He). reflexivity. }
  rewrite Hu. clear Hu.
  assert (Hv : map (fun e => N.land (N.shiftr (sipblock 25 looping_keys e) 32) NODE1MASK) looping_nonces =
               map (fun e => N.land (N.shiftr (looping_sip e) 32) NODE1MASK) looping_nonces).
  { apply map_ext_in. intros e He. rewrite (looping_sip_in e He). reflexivity. }
  rewrite Hv. clear Hv.
  match goal with |- context [N.lor ?x ?y =? 0] => replace (N.lor x y) with 0 by (vm_compute; reflexivity) end.
  change (0 =? 0) with true. cbv iota.
  set (step0 := cuckarood_step (rood_uvs _ _ _)).
  (* the walk: 0, then a, b, a, b, ... *)
  assert (S0 : exists j0, step0 0%nat = inr j0 /\
           exists j1, step0 (flip j0) = inr j1 /\ (flip j0 <> 0)%nat /\ (flip j1 <> 0)%nat /\
           exists j2, step0 (flip j1) = inr j2 /\ flip j2 = flip j0).
  { exists 82%nat. split; [unfold step0; rewrite looping_step_correct by lia; exact looping_0|].
    exists 81%nat. split; [unfold step0; rewrite looping_step_correct by (change (flip 82) with 83%nat; lia); exact looping_83|].
    split; [discriminate|]. split; [discriminate|].
    exists 82%nat. split; [unfold step0; rewrite looping_step_correct by (change (flip 81) with 80%nat; lia); exact looping_80|].
    reflexivity. }
  clearbody step0.
  destruct S0 as (j0 & S0 & j1 & S1 & Za & Z1 & j2 & S2 & E2).
  set (a := flip j0) in *.
  assert (N0 : nx step0 0 = a) by (unfold nx; rewrite S0; reflexivity).
  assert (N1 : nx step0 a = flip j1) by (unfold nx; rewrite S1; reflexivity).
  assert (N2 : nx step0 (flip j1) = a) by (unfold nx; rewrite S2; exact E2).
  assert (L : follow fuel step0 0 0 = None).
  { apply (follow_prefix step0 1).
    - intros t Ht. replace t with 0%nat by lia. cbn [iter]. split; [unfold goes; rewrite S0; exact I|].
      rewrite N0. exact Za.
    - cbn [iter]. rewrite N0. intros fuel' n'. apply (follow_loops step0 _ _ 2); [lia| |].
      + cbn [iter]. rewrite N1, N2. reflexivity.
      + intros t Ht. destruct t as [|[|t]]; [| |lia]; cbn [iter].
        * split; [unfold goes; rewrite S1; exact I|]. rewrite N1. exact Z1.
        * rewrite N1, N2. split; [unfold goes; rewrite S2; exact I|exact Za]. }
  rewrite L. reflexivity.
Qed.

(** ... so a Cuckarood proof that is not decided within 85 iterations is never decided, and
    every other proof is decided by then. *)
Theorem C25_undecided_means_endless : forall variant keys edgeBits nonces,
  Validate variant 85 keys edgeBits nonces = None <->
  forall fuel, Validate variant fuel keys edgeBits nonces = None.
Proof.
  intros variant keys bits nonces. split; [|intros H; apply H].
  intros H fuel. destruct variant;
    try (destruct (C25_verifiers_terminate Cuckatoo keys bits nonces ltac:(discriminate)) as [a Ha]; congruence);
    try (destruct (C25_verifiers_terminate Cuckaroo keys bits nonces ltac:(discriminate)) as [a Ha]; congruence);
    try (destruct (C25_verifiers_terminate Cuckaroom keys bits nonces ltac:(discriminate)) as [a Ha]; congruence);
    try (destruct (C25_verifiers_terminate Cuckarooz keys bits nonces ltac:(discriminate)) as [a Ha]; congruence).
  revert H. unfold Validate. destruct (negb _); [discriminate|]. intros H.
  assert (Hn : verify_cuckarood 85 nonces keys = None) by (destruct (verify_cuckarood 85 nonces keys); [discriminate H|reflexivity]).
  rewrite (cuckarood_85_forever _ _ Hn fuel). reflexivity.
Qed.

(** Concrete accepted proofs (hypothesis of the first theorem). *)
Definition too_nonces : list N :=
  [22; 82; 93; 132; 143; 311; 324; 336; 338; 445; 460; 461; 511; 629; 995; 1022; 1166; 1175;
   1277; 1336; 1638; 1702; 1885; 1912; 1930; 1967; 2241; 2343; 2357; 2485; 2548; 2683; 2758;
   2852; 3025; 3268; 3366; 3736; 3767; 3800; 3878; 4019].
Definition roo_nonces : list N :=
  [7; 117; 172; 204; 220; 238; 269; 457; 500; 532; 633; 677; 723; 974; 1054; 1095; 1456; 1523;
   1719; 1811; 1823; 1945; 1970; 2075; 2167; 2272; 2359; 2467; 2489; 2659; 2664; 2825; 2927;
   2955; 3069; 3133; 3248; 3354; 3363; 3606; 3656; 3891].
Example C25_example_cuckatoo :
  Validate Cuckatoo 85 (mkSip 97 2 3 4) 12 too_nonces = Some true.
Proof. vm_compute. reflexivity. Qed.
(** The siphash blocks are computed once, for both endpoints. *)
Definition roo_table : list N := Eval vm_compute in map (sipblock 21 (mkSip 14 2 3 4)) roo_nonces.
Lemma map_through {A B C} (f : A -> B) (g : B -> C) l t : map f l = t -> map (fun x => g (f x)) l = map g t.
Proof. intros <-. rewrite map_map. reflexivity. Qed.
Example C25_example_cuckaroo :
  Validate Cuckaroo 85 (mkSip 14 2 3 4) 12 roo_nonces = Some true.
Proof.
  assert (T : map (sipblock 21 (mkSip 14 2 3 4)) roo_nonces = roo_table) by (vm_compute; reflexivity).
  unfold Validate, verify_cuckaroo. cbv zeta.
  rewrite (map_through _ (fun x => N.land x (N.shiftl 1 12 - 1)) _ _ T).
  rewrite (map_through _ (fun x => N.land (N.shiftr x 32) (N.shiftl 1 12 - 1)) _ _ T).
  vm_compute. reflexivity.
Qed.
Definition room_nonces : list N :=
  [10734647; 14075672; 20322736; 24674034; 88259089; 109488430; 112946467; 126832140; 134212185;
   136185964; 137976235; 140351910; 144628728; 148277229; 154973227; 174440768; 178370530;
   178372970; 194194981; 223958631; 230885651; 243349537; 265532590; 267070976; 275199576;
   281683012; 291729443; 316173021; 329019691; 347665285; 355998533; 359709405; 361017143;
   383912461; 402578834; 423077815; 456947805; 457151717; 467607490; 497541385; 510228543;
   511639120].
Definition room_table : list N := Eval vm_compute in map (sipblock_suffix (mkSip 31 2 3 4)) room_nonces.
Example C25_example_cuckaroom :
  Validate Cuckaroom 85 (mkSip 31 2 3 4) 29 room_nonces = Some true.
Proof.
  assert (T : map (sipblock_suffix (mkSip 31 2 3 4)) room_nonces = room_table) by (vm_compute; reflexivity).
  unfold Validate, verify_cuckaroom. cbv zeta.
  rewrite (map_through _ (fun x => N.land x (N.shiftl 1 29 - 1)) _ _ T).
  rewrite (map_through _ (fun x => N.land (N.shiftr x 32) (N.shiftl 1 29 - 1)) _ _ T).
  vm_compute. reflexivity.
Qed.
(** ... and a rejected one: one nonce changed. *)
Example C25_example_rejected :
  Validate Cuckatoo 85 (mkSip 97 2 3 4) 12 (map (fun e => if e =? 4019 then 4020 else e) too_nonces) = Some false.
Proof. vm_compute. reflexivity. Qed.

Print Assumptions C25_accepted_is_cycle.
Print Assumptions C25_verifiers_terminate.
Print Assumptions C25_cuckarood_terminates_refuted.
Print Assumptions C25_undecided_means_endless.
