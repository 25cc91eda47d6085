(** Vocabulary for ordered delivery. *)
From stdpp Require Import prelude gmap.
From Verif Require Import Ordered_Model.
Local Open Scope N_scope.

Section spec.
Context {T : Type}.

(** Packet [p] numbered [i] was among the arrivals. *)
Definition arrived (ops : list (op T)) (i : N) (p : T) : Prop := Arrive i p ∈ ops.

(** Packet numbers stay below 2^64 - 1, i.e. the sender has not exhausted its 64-bit counter. *)
Definition ids_in_range (ops : list (op T)) : Prop :=
  forall i p, Arrive i p ∈ ops -> i < 2 ^ 64 - 1.

(** All arrivals are copies of messages of one sender, whose [i]-th message is [msgs !! i]. *)
Definition copies_of (msgs : list T) (ops : list (op T)) : Prop :=
  forall i p, Arrive i p ∈ ops -> msgs !! N.to_nat i = Some p.
End spec.
