(** Specification for C23/C24: the number a pair of 64-bit halves denotes. *)
From Verif Require Import Base.
Local Open Scope N_scope.
Notation W128 := 340282366920938463463374607431768211456%N.
(** A 128-bit value given by an upper and a lower 64-bit half. *)
Definition denotes (upper lower v : N) : Prop := upper < W64 /\ lower < W64 /\ v = upper * W64 + lower.
(** Difficulty of a proof with scaling [s] and hash prefix [h]: s * 2^64 / h, at most 2^64-1. *)
Definition difficulty_spec (s h : N) : N := N.min (W64 - 1) (s * W64 / N.max 1 h).
