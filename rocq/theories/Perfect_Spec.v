(** The key versions that protect the messages riding on re-keys (SecrecyMode::Perfect).

    messaging.rs 244-276: in Perfect mode a message only ever leaves an end as the payload
    of the AliceToBob message with which a trigger ends (Channel_Model.v).
    session.rs 1940-1945: the packet is protected with the ratchet that is current when it
    is made.  Here it is made as soon as the trigger has sent it. *)
From Coq Require Import ZifyBool ZifyNat ZifyN.
From stdpp Require Import prelude gmap.
From Verif Require Import Rekey_Model Rekey_Spec.
Local Open Scope N_scope.

(** The version that protects what the end [s] sends in the step [e], if [e] sends an AliceToBob. *)
Definition used (w : world) (s : bool) (e : revent) : option N :=
  match e with
  | Send t =>
      if Bool.eqb t s
      then match n_trig (w_node w s) with TReady _ _ _ => current_ratchet (w_node w s) | _ => None end
      else None
  | _ => None
  end.
(** The version the message itself names. *)
Definition named (w : world) (s : bool) (e : revent) : option N :=
  match e with
  | Send t =>
      if Bool.eqb t s
      then match n_trig (w_node w s) with TReady _ _ l => Some l | _ => None end
      else None
  | _ => None
  end.

Fixpoint along (MAX : nat) (f : world → bool → revent → option N) (w : world) (s : bool) (es : list revent) : list N :=
  match es with
  | [] => []
  | e :: es => option_list (f w s e) ++ along MAX f (rstep MAX w e).1 s es
  end.

(** The versions used, and named, by the end [s] in a run. *)
Definition versions (MAX : nat) (r : keyring) (s : bool) (es : list revent) : list N := along MAX used (world_init r) s es.
Definition versions_named (MAX : nat) (r : keyring) (s : bool) (es : list revent) : list N := along MAX named (world_init r) s es.

(** Nothing comes between the last check of a trigger and its message. *)
Fixpoint at_once (s : bool) (es : list revent) : Prop :=
  match es with
  | [] => True
  | e :: rest =>
      (e = Declare s → ∃ rest', rest = Send s :: rest') ∧ at_once s rest
  end.
