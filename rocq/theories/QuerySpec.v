(** What is said about queries, independently of how they are answered. *)
From Coq Require Import Ascii String.
From Verif Require Import Base Bytes TextSpec KeyPathSpec QueryModel.
Local Open Scope N_scope.
Local Open Scope list_scope.

(** The value at a height of a chain, looked up in a table. *)
Definition at_height {A} (chain : list bytes) (table : bytes -> option A) (height : N) (r : option A) : Prop :=
  (exists hash, nth_error chain (N.to_nat height) = Some hash /\ r = table hash) \/
  ((length chain <= N.to_nat height)%nat /\ r = None).

(** A query for the outputs of a range of heights. *)
Definition range_query (query : bytes) (first last : N) : Prop :=
  exists a b, decimal first a /\ decimal last b /\ query = text "start_height=" ++ a ++ text "&end_height=" ++ b.

(** [v] is the value of the first field called [k] of an object; null if there is none. *)
Definition field (fields : list (bytes * json)) (k : bytes) (v : json) : Prop :=
  (exists before after, fields = before ++ (k, v) :: after /\ ~ In k (map fst before)) \/ (v = JNull /\ ~ In k (map fst fields)).
(** A request of JSON-RPC 2.0 that is no notification: its version, an id that is not null, the name of a method and optional parameters. *)
Definition is_request (j : json) (r : Request) : Prop :=
  exists fields, j = JObj fields /\ field fields (text "jsonrpc") (JStr (text "2.0")) /\
    field fields (text "id") (q_id r) /\ q_id r <> JNull /\
    field fields (text "method") (JStr (q_method r)) /\ q_method r <> [] /\
    exists p, field fields (text "params") p /\ q_params r = match p with JNull => None | _ => Some p end.
