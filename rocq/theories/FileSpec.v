(** Specification for C08: a record file is a pair of lists of records, the committed one and
    the current one. *)
From Verif Require Import Base Bytes.
Local Open Scope N_scope.

Record fspec := mkF { committed : list bytes; current : list bytes }.
Inductive sop := SAdd (r : bytes) | SRewind (n : N) | SCommit | SRollback | SGet (i : N) | SSize.
Inductive sres := SDone | SError | SRecord (r : bytes) | SCount (n : N).

(** [spec_step s op r s']: performing [op] in [s] gives result [r] and state [s'].
    Reading beyond the end is not covered (no rule): callers must read in bounds. *)
Inductive spec_step : fspec -> sop -> sres -> fspec -> Prop :=
| st_add s r : spec_step s (SAdd r) SDone (mkF (committed s) (current s ++ [r]))
| st_rewind s n : n <= N.of_nat (length (current s)) ->
    spec_step s (SRewind n) SDone (mkF (committed s) (firstn (N.to_nat n) (current s)))
| st_rewind_err s n : n > N.of_nat (length (current s)) -> spec_step s (SRewind n) SError s
| st_commit s : spec_step s SCommit SDone (mkF (current s) (current s))
| st_rollback s : spec_step s SRollback SDone (mkF (committed s) (committed s))
| st_get s i r : nth_error (current s) (N.to_nat i) = Some r -> spec_step s (SGet i) (SRecord r) s
| st_size s : spec_step s SSize (SCount (N.of_nat (length (current s)))) s.

Inductive spec_run : fspec -> list sop -> list sres -> fspec -> Prop :=
| run_nil s : spec_run s [] [] s
| run_cons s op r s1 ops rs s2 : spec_step s op r s1 -> spec_run s1 ops rs s2 -> spec_run s (op :: ops) (r :: rs) s2.

(** Every record added has the right size and the file stays below 2^64 bytes; every index used
    stays below 2^64 bytes as well. *)
Definition op_ok (NUM : N) (op : sop) : Prop :=
  match op with
  | SAdd r => N.of_nat (length r) = NUM
  | SRewind n => n * NUM < W64
  | SGet i => i * NUM < W64
  | _ => True
  end.

(** All intermediate current lists stay below 2^64 bytes. *)
Inductive small_run (NUM : N) : fspec -> list sop -> Prop :=
| small_nil s : N.of_nat (length (current s)) * NUM < W64 -> small_run NUM s []
| small_cons s op r s1 ops : N.of_nat (length (current s)) * NUM < W64 ->
    spec_step s op r s1 -> small_run NUM s1 ops -> small_run NUM s (op :: ops).
