(** What the properties of the re-key protocol (C11, C64) say, in terms of the version each end uses, the keys it
    holds and the outcomes of its rounds. *)
From stdpp Require Import prelude gmap.
From Verif Require Import Rekey_Model.
Local Open Scope N_scope.

(** the version an end encrypts with, and the key an end holds for a version *)
Definition version (w : world) (s : bool) : N := n_latest (w_node w s).
Definition key_of (w : world) (s : bool) (v : N) : option rkey := kr_get (n_ring (w_node w s)) v.
Definition idle (w : world) (s : bool) : Prop := n_role (w_node w s) = Idle.

(** what is used by either end can be read by the other *)
Definition readable (w : world) : Prop :=
  ∀ s, ∃ k, key_of w s (version w s) = Some k ∧ key_of w (negb s) (version w s) = Some k.
(** the two ends never hold different keys for one version *)
Definition consistent (w : world) : Prop :=
  ∀ v k1 k2, key_of w true v = Some k1 → key_of w false v = Some k2 → k1 = k2.
(** schedules of triggers and in-order deliveries, with nothing timing out *)
Definition prompt (e : revent) : Prop := match e with Timeout _ | Forget _ => False | _ => True end.
(** the keys the two ends start with *)
Definition start_ring (MAX : nat) (r : keyring) : Prop := (1 ≤ length (kr_keys r) < MAX)%nat.
(** nothing is going on at either end *)
Definition settled (w : world) : Prop :=
  ∀ s, n_role (w_node w s) = Idle ∧ w_out w s = [] ∧ n_trig (w_node w s) = TNone ∧ n_toggle (w_node w s) = false ∧
       n_declared (w_node w s) = n_latest (w_node w s).
(** one end starts a re-key, and every message of it arrives *)
Definition full_round (s : bool) : list revent :=
  [Start s false; Construct s; ReadLatest s; Declare s; Send s; Deliver (negb s); Deliver s; Deliver (negb s); Deliver s].
(** how far one end can be with re-keying: no event but a timeout changes anything any more *)
Definition dead (MAX : nat) (w : world) : Prop :=
  ∀ es s, Forall prompt es → version (rrun MAX w es).1 s = version w s ∧ n_role (w_node (rrun MAX w es).1 s) = n_role (w_node w s).
(** nothing is left of earlier rounds: both ends hold the same keys, the newest of which they use *)
Definition restored (MAX : nat) (w : world) : Prop :=
  settled w ∧ n_ring (w_node w true) = n_ring (w_node w false) ∧ start_ring MAX (n_ring (w_node w true)) ∧
  ∀ s, version w s = kr_newest (n_ring (w_node w s)) ∧ n_stale (w_node w s) = 0.
