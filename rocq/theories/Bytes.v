(** Byte strings and fixed-width integer encodings. A byte is an [N] below 256. *)
From Verif Require Import Base.
Local Open Scope N_scope.

Notation byte := N (only parsing).
Notation bytes := (list N) (only parsing).
Definition is_bytes (l : bytes) : Prop := Forall (fun b => b < 256) l.

(** include/Core/Serialization/Serializer.h Append<T> with EndianHelper: the k-byte big-endian
    encoding of an unsigned integer *)
Fixpoint be_bytes (k : nat) (n : N) : bytes :=
  match k with
  | O => []
  | S k' => be_bytes k' (n / 256) ++ [n mod 256]
  end.

(** little-endian encoding, Serializer.h AppendLittleEndian *)
Fixpoint le_bytes (k : nat) (n : N) : bytes :=
  match k with
  | O => []
  | S k' => n mod 256 :: le_bytes k' (n / 256)
  end.

(** the value of a big-endian byte string *)
Definition be_value (l : bytes) : N := fold_left (fun acc b => acc * 256 + b) l 0.
Fixpoint le_value (l : bytes) : N :=
  match l with [] => 0 | b :: l' => b + 256 * le_value l' end.

Fixpoint bytes_eqb (a b : bytes) : bool :=
  match a, b with
  | [], [] => true
  | x :: a', y :: b' => (x =? y) && bytes_eqb a' b'
  | _, _ => false
  end.

(* ------------------------------------------------------------------ *)

Lemma bytes_eqb_spec a b : bytes_eqb a b = true <-> a = b.
Proof.
  revert b; induction a as [|x a IH]; intros [|y b]; cbn [bytes_eqb]; split; try discriminate; auto.
  - intros H. apply andb_true_iff in H. destruct H as [H1 H2]. apply N.eqb_eq in H1. apply IH in H2. congruence.
  - intros H. inversion H; subst. rewrite N.eqb_refl. apply IH. reflexivity.
Qed.

Lemma bytes_eqb_refl a : bytes_eqb a a = true.
Proof. apply bytes_eqb_spec. reflexivity. Qed.

Lemma bytes_eqb_false a b : bytes_eqb a b = false <-> a <> b.
Proof.
  destruct (bytes_eqb a b) eqn:E.
  - apply bytes_eqb_spec in E. split; [discriminate|contradiction].
  - split; [|reflexivity]. intros _ H. apply bytes_eqb_spec in H. congruence.
Qed.

Lemma be_bytes_length k n : length (be_bytes k n) = k.
Proof. revert n; induction k as [|k IH]; intros n; cbn [be_bytes]; [reflexivity|]. rewrite app_length, IH. cbn. lia. Qed.

Lemma le_bytes_length k n : length (le_bytes k n) = k.
Proof. revert n; induction k as [|k IH]; intros n; cbn [le_bytes]; [reflexivity|]. cbn. rewrite IH. reflexivity. Qed.

Lemma be_bytes_are_bytes k n : is_bytes (be_bytes k n).
Proof.
  revert n; induction k as [|k IH]; intros n; cbn [be_bytes]; [constructor|].
  apply Forall_app; split; [apply IH|]. constructor; [lia|constructor].
Qed.

Lemma le_bytes_are_bytes k n : is_bytes (le_bytes k n).
Proof. revert n; induction k as [|k IH]; intros n; cbn [le_bytes]; constructor; [lia|apply IH]. Qed.

Lemma be_value_app a b : be_value (a ++ [b]) = be_value a * 256 + b.
Proof. unfold be_value. rewrite fold_left_app. reflexivity. Qed.

Lemma be_value_be_bytes k n : n < 256 ^ N.of_nat k -> be_value (be_bytes k n) = n.
Proof.
  revert n; induction k as [|k IH]; intros n Hn; cbn [be_bytes].
  - cbn in *. lia.
  - rewrite be_value_app, IH; [lia|]. rewrite Nat2N.inj_succ, N.pow_succ_r in Hn by lia.
    remember (256 ^ N.of_nat k) as q. lia.
Qed.

Lemma le_value_le_bytes k n : n < 256 ^ N.of_nat k -> le_value (le_bytes k n) = n.
Proof.
  revert n; induction k as [|k IH]; intros n Hn; cbn [le_bytes le_value].
  - cbn in *. lia.
  - rewrite IH; [lia|]. rewrite Nat2N.inj_succ, N.pow_succ_r in Hn by lia.
    remember (256 ^ N.of_nat k) as q. lia.
Qed.

Lemma be_value_bound l : is_bytes l -> be_value l < 256 ^ N.of_nat (length l).
Proof.
  induction l as [|b l IH] using rev_ind; intros H.
  - cbn. lia.
  - apply Forall_app in H. destruct H as [H1 H2]. inversion H2; subst.
    rewrite be_value_app, app_length, Nat.add_comm. cbn [length Nat.add].
    rewrite Nat2N.inj_succ, N.pow_succ_r by lia. specialize (IH H1).
    remember (256 ^ N.of_nat (length l)) as q. lia.
Qed.

Lemma be_bytes_be_value l : is_bytes l -> be_bytes (length l) (be_value l) = l.
Proof.
  induction l as [|b l IH] using rev_ind; intros H; [reflexivity|].
  apply Forall_app in H. destruct H as [H1 H2]. inversion H2; subst.
  rewrite be_value_app, app_length, Nat.add_comm. cbn [length Nat.add be_bytes].
  replace ((be_value l * 256 + b) / 256) with (be_value l) by lia.
  replace ((be_value l * 256 + b) mod 256) with b by lia.
  rewrite IH by assumption. reflexivity.
Qed.

Lemma le_bytes_le_value l : is_bytes l -> le_bytes (length l) (le_value l) = l.
Proof.
  induction l as [|b l IH]; intros H; [reflexivity|]. inversion H; subst. cbn [length le_value le_bytes].
  replace ((b + 256 * le_value l) / 256) with (le_value l) by lia.
  replace ((b + 256 * le_value l) mod 256) with b by lia.
  rewrite IH by assumption. reflexivity.
Qed.

Lemma be_bytes_inj k a b : a < 256 ^ N.of_nat k -> b < 256 ^ N.of_nat k -> be_bytes k a = be_bytes k b -> a = b.
Proof. intros Ha Hb E. rewrite <- (be_value_be_bytes k a Ha), <- (be_value_be_bytes k b Hb). congruence. Qed.

Lemma app_inv_length {A} (a b c d : list A) : length a = length c -> a ++ b = c ++ d -> a = c /\ b = d.
Proof.
  revert c; induction a as [|x a IH]; intros [|y c] Hl E; cbn in *; try discriminate; auto.
  inversion E as [[Hx E2]]; subst. destruct (IH c) as [Ha Hb]; auto; split; congruence.
Qed.
