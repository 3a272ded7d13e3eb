(** Proofs about key paths. *)
From Coq Require Import Ascii String.
From Verif Require Import Base Bytes FileModel SerialModel TextModel TextSpec TextProofs TextCheck KeyPathModel KeyPathSpec.
Local Open Scope N_scope.
Local Open Scope list_scope.

Definition canonical (ds : list N) : Prop := ds = [0] \/ (ds <> [] /\ no_leading_zero ds).
Definition dec_chars (ds : list N) : bytes := map (fun d => 48 + d) ds.

Lemma radix_cons b d ds : radix b (d :: ds) = d * b ^ N.of_nat (length ds) + radix b ds.
Proof.
  rewrite <- (le_val_rev b (d :: ds)), <- (le_val_rev b ds). cbn [rev]. rewrite le_val_app, rev_length. cbn [le_val]. lia.
Qed.

Lemma to_string_loop_spec fuel : forall n acc, n < 2 ^ N.of_nat fuel -> (0 < fuel)%nat ->
  exists ds, to_string_loop fuel n acc = dec_chars ds ++ acc /\ digits 10 ds /\ radix 10 ds = n /\ ds <> [] /\ (n <> 0 -> no_leading_zero ds) /\ (n = 0 -> ds = [0]).
Proof.
  induction fuel as [|fuel IH]; intros n acc Hn Hf; [lia|]. cbn [to_string_loop].
  rewrite Nat2N.inj_succ, N.pow_succ_r in Hn by lia.
  destruct (N.eqb_spec (n / 10) 0) as [E|E].
  - exists [n mod 10]. assert (Hs : n < 10) by lia. rewrite N.mod_small by lia. split; [reflexivity|].
    split; [constructor; [lia|constructor]|]. split; [cbn; lia|]. split; [discriminate|]. split; [cbn; auto|]. intros ->. reflexivity.
  - destruct fuel as [|fuel].
    { cbn in Hn. exfalso. apply E. lia. }
    destruct (IH (n / 10) ((48 + n mod 10) :: acc)) as (ds & E1 & D & R & Ne & L & _); [|lia|].
    { remember (2 ^ N.of_nat (S fuel)) as P. lia. }
    exists (ds ++ [n mod 10]). split.
    { rewrite E1. unfold dec_chars. rewrite map_app, <- app_assoc. reflexivity. }
    split; [apply Forall_app; split; [exact D|constructor; [lia|constructor]]|].
    split; [rewrite radix_app, R; lia|]. split; [destruct ds; discriminate|]. split; [|lia].
    intros _. specialize (L E). destruct ds as [|d ds]; [contradiction|]. exact L.
Qed.

Lemma to_string_spec n : exists ds, to_string n = dec_chars ds /\ digits 10 ds /\ radix 10 ds = n /\ canonical ds.
Proof.
  unfold to_string. destruct (to_string_loop_spec (S (N.to_nat (N.log2 n))) n []) as (ds & E & D & R & Ne & L & Z); [|lia|].
  - rewrite Nat2N.inj_succ, N2Nat.id. destruct (N.eq_dec n 0) as [->|H]; [cbn; lia|]. apply N.log2_spec. lia.
  - exists ds. rewrite app_nil_r in E. split; [exact E|]. split; [exact D|]. split; [exact R|].
    destruct (N.eq_dec n 0) as [H|H]; [left; auto|right; auto].
Qed.

Lemma digit_run_spec ds : digits 10 ds -> forall rest v, (match rest with [] => True | c :: _ => is_digit c = false end) ->
  digit_run (dec_chars ds ++ rest) v = (v * 10 ^ N.of_nat (length ds) + radix 10 ds, rest).
Proof.
  induction 1 as [|d ds Hd Hds IH]; intros rest v Hr.
  - cbn [dec_chars map app length]. change (radix 10 []) with 0. rewrite N.pow_0_r, N.mul_1_r, N.add_0_r.
    destruct rest as [|c rest]; [reflexivity|]. cbn [digit_run]. rewrite Hr. reflexivity.
  - cbn [dec_chars map app digit_run]. assert (Q : is_digit (48 + d) = true) by (unfold is_digit; lia). rewrite Q.
    fold (dec_chars ds). rewrite (IH rest _ Hr). f_equal.
    cbn [length]. rewrite Nat2N.inj_succ, N.pow_succ_r, radix_cons by lia. remember (10 ^ N.of_nat (length ds)) as P.
    replace (48 + d - 48) with d by lia. ring.
Qed.

Lemma stoi_dec ds rest : digits 10 ds -> ds <> [] -> (match rest with [] => True | c :: _ => is_digit c = false end) ->
  stoi (dec_chars ds ++ rest) = if radix 10 ds <? 2147483648 then Ret (Z.of_N (radix 10 ds), rest) else Throw.
Proof.
  intros D Ne Hr. destruct ds as [|d ds]; [contradiction|]. inversion D as [|? ? Hd D']; subst.
  unfold stoi. cbn [dec_chars map app skip_spaces]. fold (dec_chars ds).
  assert (S1 : IsSpace (48 + d) = false) by (unfold IsSpace; lia). rewrite S1.
  assert (S2 : (48 + d =? 45) = false) by lia. assert (S3 : (48 + d =? 43) = false) by lia. rewrite S2, S3.
  assert (S4 : is_digit (48 + d) = true) by (unfold is_digit; lia). rewrite S4.
  change ((48 + d) :: dec_chars ds ++ rest) with (dec_chars (d :: ds) ++ rest). rewrite (digit_run_spec _ D rest 0 Hr). rewrite N.mul_0_l, N.add_0_l.
  remember (radix 10 (d :: ds)) as n.
  destruct (N.ltb_spec n 2147483648) as [H|H].
  - replace ((-2147483648 <=? Z.of_N n) && (Z.of_N n <=? 2147483647))%Z with true by lia. reflexivity.
  - replace ((-2147483648 <=? Z.of_N n) && (Z.of_N n <=? 2147483647))%Z with false by lia. reflexivity.
Qed.

Lemma to_uint32_small n : n < 4294967296 -> to_uint32 (Z.of_N n) = n.
Proof. intros H. unfold to_uint32. rewrite Z.mod_small by lia. apply N2Z.id. Qed.

Definition parts (p : KeyChainPath) : bytes := flat_map (fun i => chars "/" ++ to_string i) p.
Lemma parts_head p : match parts p with [] => True | c :: _ => is_digit c = false end.
Proof. destruct p; cbn; auto. Qed.

Lemma from_string_parts p : forall fuel, (length (parts p) <= fuel)%nat -> Forall (fun i => i < 2147483648) p ->
  from_string_loop fuel (parts p) = Ret p.
Proof.
  induction p as [|i p IH]; intros fuel Hf F; [destruct fuel; reflexivity|]. inversion F as [|? ? Hi F']; subst.
  unfold parts in *. cbn [flat_map] in *. fold (parts p) in *. change (chars "/") with [47] in *.
  destruct (to_string_spec i) as (ds & E & D & R & C). rewrite E in *.
  assert (Ne : ds <> []) by (destruct C as [->|[? _]]; [discriminate|assumption]).
  rewrite <- app_assoc in *. cbn [app] in *. destruct ds as [|d ds]; [contradiction|].
  cbn [dec_chars map app] in *. fold (dec_chars ds) in *. cbn [length] in Hf. destruct fuel as [|fuel]; [lia|].
  cbn [from_string_loop]. change (negb (47 =? 47)) with false. cbv iota.
  change ((48 + d) :: dec_chars ds ++ parts p) with (dec_chars (d :: ds) ++ parts p).
  rewrite (stoi_dec (d :: ds) (parts p) D Ne (parts_head p)). rewrite R.
  destruct (N.ltb_spec i 2147483648); [|lia]. cbn [obind]. rewrite app_length in Hf. rewrite IH; [|lia|exact F'].
  cbn [obind]. rewrite to_uint32_small by lia. reflexivity.
Qed.

Lemma from_string_big p : (exists i, In i p /\ 2147483648 <= i) -> forall fuel, (length (parts p) <= fuel)%nat -> from_string_loop fuel (parts p) = Throw.
Proof.
  induction p as [|i p IH]; intros (j & Hj & Hb) fuel Hf; [destruct Hj|].
  unfold parts in *. cbn [flat_map] in *. fold (parts p) in *. change (chars "/") with [47] in *.
  destruct (to_string_spec i) as (ds & E & D & R & C). rewrite E in *.
  assert (Ne : ds <> []) by (destruct C as [->|[? _]]; [discriminate|assumption]).
  rewrite <- app_assoc in *. cbn [app] in *. destruct ds as [|d ds]; [contradiction|].
  cbn [dec_chars map app] in *. fold (dec_chars ds) in *. cbn [length] in Hf. destruct fuel as [|fuel]; [lia|].
  cbn [from_string_loop]. change (negb (47 =? 47)) with false. cbv iota.
  change ((48 + d) :: dec_chars ds ++ parts p) with (dec_chars (d :: ds) ++ parts p).
  rewrite (stoi_dec (d :: ds) (parts p) D Ne (parts_head p)). rewrite R.
  destruct (N.ltb_spec i 2147483648) as [Hlt|Hge]; [|reflexivity]. cbn [obind]. rewrite app_length in Hf.
  rewrite IH; [reflexivity| |lia]. exists j. destruct Hj as [->|Hj]; [lia|auto].
Qed.

Lemma text_roundtrip p : Forall (fun i => i < 2147483648) p -> FromString (Format p) = Ret p.
Proof. intros F. unfold FromString, Format. change (chars "m") with [109]. cbn [app]. rewrite N.eqb_refl. apply from_string_parts; [reflexivity|exact F]. Qed.

Lemma text_lost p : (exists i, In i p /\ 2147483648 <= i) -> FromString (Format p) = Throw.
Proof. intros F. unfold FromString, Format. change (chars "m") with [109]. cbn [app]. rewrite N.eqb_refl. apply from_string_big; [exact F|reflexivity]. Qed.

Lemma dec_decimal n ds : digits 10 ds -> radix 10 ds = n -> canonical ds -> decimal n (dec_chars ds).
Proof.
  intros D R C. exists ds. split; [|auto]. clear R C. induction D as [|d ds Hd D IH]; [constructor|]. cbn [dec_chars map]. constructor; [|exact IH].
  assert (Q : d = 0 \/ d = 1 \/ d = 2 \/ d = 3 \/ d = 4 \/ d = 5 \/ d = 6 \/ d = 7 \/ d = 8 \/ d = 9) by lia.
  repeat destruct Q as [->|Q]; try reflexivity. subst. reflexivity.
Qed.

Lemma format_text p : path_text (Format p) p.
Proof.
  exists (parts p). split; [reflexivity|]. induction p as [|i p IH]; [constructor|].
  unfold parts. cbn [flat_map]. fold (parts p). destruct (to_string_spec i) as (ds & E & D & R & C). rewrite E, <- app_assoc.
  apply (parts_more i (dec_chars ds) (parts p) p); [apply dec_decimal; assumption|exact IH].
Qed.

Lemma parts_inj p : forall p', parts p = parts p' -> p = p'.
Proof.
  induction p as [|i p IH]; intros p' E.
  - destruct p' as [|i' p']; [reflexivity|]. discriminate E.
  - destruct p' as [|i' p']; [discriminate E|]. unfold parts in E. cbn [flat_map] in E. fold (parts p) in E. fold (parts p') in E.
    change (chars "/") with [47] in E. rewrite <- !app_assoc in E. cbn [app] in E.
    apply (f_equal (@tl N)) in E. cbn [tl] in E.
    destruct (to_string_spec i) as (ds & E1 & D & R & C). destruct (to_string_spec i') as (ds' & E1' & D' & R' & C').
    rewrite E1, E1' in E.
    pose proof (digit_run_spec ds D (parts p) 0 (parts_head p)) as Q. pose proof (digit_run_spec ds' D' (parts p') 0 (parts_head p')) as Q'.
    rewrite E, Q', !N.mul_0_l, !N.add_0_l, R, R' in Q.
    pose proof (f_equal fst Q) as Q1. pose proof (f_equal snd Q) as Q2. cbn [fst snd] in Q1, Q2. f_equal; [congruence|]. apply IH. congruence.
Qed.
Lemma format_inj p p' : Format p = Format p' -> p = p'.
Proof. intros E. apply parts_inj. unfold Format in E. change (chars "m") with [109] in E. cbn [app] in E. apply (f_equal (@tl N)) in E. exact E. Qed.

(* ------------------------------------------------------------------ handing out paths *)
Lemma to_uint32_to_int n : to_uint32 (to_int n) = n mod 4294967296.
Proof.
  unfold to_uint32, to_int. cbv zeta. pose proof (N.mod_upper_bound n 4294967296 ltac:(lia)) as H. remember (n mod 4294967296) as m.
  destruct (N.ltb_spec m 2147483648) as [L|L].
  - rewrite Z.mod_small by lia. apply N2Z.id.
  - replace (Z.of_N m - 4294967296)%Z with (Z.of_N m + (-1) * 4294967296)%Z by lia. rewrite Z.mod_add by lia. rewrite Z.mod_small by lia. apply N2Z.id.
Qed.

Definition USER := Format USER_PATH.
Definition at_index (n : N) : accounts := [(USER, to_int n)].
Definition child (n : N) : KeyChainPath := GetChild USER_PATH (n mod 4294967296).

Lemma to_int_mod n : to_int (n mod 4294967296) = to_int n.
Proof. unfold to_int. rewrite N.mod_mod by lia. reflexivity. Qed.

Lemma next_child n : GetNextChildPath (at_index n) USER_PATH = Ret (child n, at_index (n + 1)).
Proof.
  unfold GetNextChildPath, at_index. cbn [GetNextChildIndex]. fold USER. rewrite bytes_eqb_refl. cbn [obind].
  rewrite to_uint32_to_int. fold (child n). f_equal. f_equal. unfold UpdateNextChildIndex. cbn [map fst]. rewrite bytes_eqb_refl.
  unfold at_index. f_equal. f_equal. rewrite <- (to_int_mod (n mod 4294967296 + 1)), N.add_mod_idemp_l by lia. apply to_int_mod.
Qed.

Lemma next_paths_spec k : forall n, next_paths k (at_index n) = Ret (map (fun j => child (n + N.of_nat j)) (seq 0 k), at_index (n + N.of_nat k)).
Proof.
  induction k as [|k IH]; intros n; cbn [next_paths].
  - cbn [seq map]. rewrite N.add_0_r. reflexivity.
  - rewrite next_child. cbn [obind snd]. rewrite IH. cbn [obind fst snd]. f_equal. f_equal; [|f_equal; lia].
    cbn [seq map]. rewrite N.add_0_r. f_equal. rewrite <- seq_shift, map_map. apply map_ext. intros j. f_equal. lia.
Qed.

(** the number of indices an operation uses up *)
Definition op_cost (op : path_op) : nat :=
  match op with Outputs n true => n | Coinbase _ true => 1 | _ => 0 end.
Definition cost (ops : list path_op) : nat := list_sum (map op_cost ops).
(** no operation brings its own path *)
Definition no_explicit (op : path_op) : Prop := match op with Coinbase (Some _) true => False | _ => True end.

Lemma run_spec ops : Forall no_explicit ops -> forall n,
  path_run ops (at_index n) = Ret (map (fun j => child (n + N.of_nat j)) (seq 0 (cost ops)), at_index (n + N.of_nat (cost ops))).
Proof.
  induction 1 as [|op ops Ho Hops IH]; intros n; cbn [path_run].
  - cbn. rewrite N.add_0_r. reflexivity.
  - assert (Q : path_step op (at_index n) = Ret (map (fun j => child (n + N.of_nat j)) (seq 0 (op_cost op)), at_index (n + N.of_nat (op_cost op)))).
    { destruct op as [k c|e c|]; cbn [path_step op_cost].
      - rewrite next_paths_spec. cbn [obind]. destruct c; [reflexivity|]. cbn. rewrite N.add_0_r. reflexivity.
      - rewrite next_child. cbn [obind fst snd]. destruct c; [|cbn; rewrite N.add_0_r; reflexivity].
        destruct e as [p|]; [destruct Ho|]. cbn [seq map]. rewrite N.add_0_r. reflexivity.
      - cbn. rewrite N.add_0_r. reflexivity. }
    rewrite Q. cbn [obind fst snd]. rewrite IH. cbn [obind fst snd]. unfold cost. cbn [map list_sum fold_right]. fold (cost ops).
    f_equal. f_equal.
    + change (fold_right Nat.add 0%nat (map op_cost ops)) with (cost ops). rewrite seq_app, map_app. f_equal.
      assert (G : forall m a k, seq (a + m) k = map (Nat.add m) (seq a k)).
      { clear. intros m a k. revert a. induction k as [|k IH]; intros a; [reflexivity|]. cbn [seq map]. f_equal; [lia|]. rewrite <- IH. reflexivity. }
      rewrite (G (op_cost op) 0%nat), map_map. apply map_ext. intros j. f_equal. lia.
    + change (fold_right Nat.add 0%nat (map op_cost ops)) with (cost ops). f_equal. lia.
Qed.

Lemma child_inj a b : child a = child b -> a mod 4294967296 = b mod 4294967296.
Proof. unfold child, GetChild, USER_PATH. cbn [app]. intros E. inversion E. reflexivity. Qed.

Lemma paths_distinct n k : N.of_nat k <= 4294967296 -> NoDup (map (fun j => child (n + N.of_nat j)) (seq 0 k)).
Proof.
  intros Hk. assert (I : forall i j, (i < k)%nat -> (j < k)%nat -> child (n + N.of_nat i) = child (n + N.of_nat j) -> i = j).
  { intros i j Hi Hj E. apply child_inj in E. lia. }
  assert (G : forall a m, (a + m <= k)%nat -> NoDup (map (fun j => child (n + N.of_nat j)) (seq a m))).
  { intros a m. revert a. induction m as [|m IH]; intros a Ham; cbn [seq map]; constructor.
    - intros Hin. apply in_map_iff in Hin. destruct Hin as (j & E & Hj). apply in_seq in Hj. apply I in E; lia.
    - apply IH. lia. }
  apply G. lia.
Qed.

(* ------------------------------------------------------------------ hexadecimal *)
From Verif Require Import SerialSpec SerialProofs.
Lemma hex_path_roundtrip p : (length p <= 4)%nat -> Forall index32 p -> Path_FromHex (ToHex p) = Ret p.
Proof.
  intros L F. unfold Path_FromHex, ToHex.
  set (data := Append 1 (nlen p) ++ _). assert (Hb : is_bytes data).
  { unfold data. apply Forall_app; split; [apply Append_bytes|]. do 3 (apply Forall_app; split; [apply Append_bytes|]). apply Append_bytes. }
  rewrite (hex_roundtrip data Hb). cbn [obind].
  assert (E : exists pad, data = (Append 1 (nlen p) ++ flat_map (Append 4) p) ++ pad).
  { unfold data. destruct p as [|a [|b [|c [|d [|e p]]]]]; cbn [nth flat_map]; rewrite ?app_nil_r, <- ?app_assoc; cbn [app];
    [exists (Append 4 0 ++ Append 4 0 ++ Append 4 0 ++ Append 4 0)|exists (Append 4 0 ++ Append 4 0 ++ Append 4 0)|exists (Append 4 0 ++ Append 4 0)|exists (Append 4 0)|exists []|cbn in L; lia];
    rewrite ?app_nil_r; reflexivity. }
  destruct E as (pad & E). rewrite E.
  assert (D : decodes 0 (let! size := ReadU8 in if 4 <? size then rthrow else read_many ReadU32 (N.to_nat size)) (Append 1 (nlen p) ++ flat_map (Append 4) p) p).
  { apply dec_bind with (nlen p); [apply dec_be; unfold nlen; cbn; lia|].
    destruct (N.ltb_spec 4 (nlen p)) as [H|H]; [unfold nlen in H; lia|]. unfold nlen. rewrite Nat2N.id. apply dec_many.
    eapply Forall_impl; [|exact F]. intros i Hi. apply dec_be. unfold index32 in Hi. cbn. lia. }
  assert (Hl : N.of_nat (length ([] ++ (Append 1 (nlen p) ++ flat_map (Append 4) p) ++ pad)) < W64).
  { cbn [app]. rewrite <- E. unfold data. rewrite !app_length, !Append_length. reflexivity. }
  pose proof (D [] pad Hl) as Q. cbn [app length] in Q. change (N.of_nat 0) with 0 in Q.
  rewrite <- app_assoc in *. rewrite Q. reflexivity.
Qed.

Lemma hex_path_long p : (4 < length p < 256)%nat -> Path_FromHex (ToHex p) = Throw.
Proof.
  intros L. unfold Path_FromHex, ToHex.
  set (data := Append 1 (nlen p) ++ _). assert (Hb : is_bytes data).
  { unfold data. apply Forall_app; split; [apply Append_bytes|]. do 3 (apply Forall_app; split; [apply Append_bytes|]). apply Append_bytes. }
  rewrite (hex_roundtrip data Hb). cbn [obind].
  assert (D : decodes 0 ReadU8 (Append 1 (nlen p)) (nlen p)) by (apply dec_be; unfold nlen; cbn; lia).
  unfold data. set (pad := Append 4 (nth 0 p 0) ++ _).
  assert (Hl : N.of_nat (length ([] ++ Append 1 (nlen p) ++ pad)) < W64).
  { cbn [app]. unfold pad. rewrite !app_length, !Append_length. reflexivity. }
  pose proof (D [] pad Hl) as Q. cbn [app length] in Q. change (N.of_nat 0) with 0 in Q.
  unfold rbind. rewrite Q. cbn [obind fst snd]. destruct (N.ltb_spec 4 (nlen p)) as [H|H]; [reflexivity|unfold nlen in H; lia].
Qed.
