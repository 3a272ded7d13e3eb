(** What is claimed of the choice of peers, of bans and of connections, in terms of the peers a node knows and of a history of events. *)
From Verif Require Import Base PeerModel.
Local Open Scope N_scope.

(** A peer that may be connected to at the time [now]: known, not banned during the last 3 hours, not connected, and not tried during the
    last 5 minutes. *)
Definition ready (now : Z) (p : peer) : Prop := (p_lastBan p + 10800 <= now)%Z /\ p_connected p = false /\ (p_lastAttempt p + 300 < now)%Z.
Definition distinct (ps : list peer) : Prop := NoDup (map p_addr ps).

(** Nothing in this history takes the ban of [a] away, and it is over before 3 hours have passed since [t]. *)
Definition within_ban (a : N) (t : Z) (h : list (Z * op)) : Prop :=
  Forall (fun '(now, o) => (t <= now < t + 10800)%Z /\ o <> Restart /\ o <> ApiUnban a) h.
(** The peer, if known, was never spoken to, or during the last 6 days and 21 hours. *)
Definition spoken_recently (a : N) (t : Z) (n : node) : Prop :=
  forall p, In p (n_peers n) -> p_addr p = a -> (p_lastContact p <= 0 \/ t - 594000 <= p_lastContact p)%Z.
Definition no_restart (h : list (Z * op)) : Prop := Forall (fun '(_, o) => o <> Restart) h.

(** The connections the node counts, with this address. *)
Definition connections_to (a : N) (n : node) : nat := length (filter (fun k => (k_managed k && (k_addr k =? a))%bool) (n_links n)).
