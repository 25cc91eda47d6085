(** What C68-C78 say, in terms of the requests clients send and what the server does. *)
From Coq Require Import ZifyBool ZifyNat ZifyN.
From stdpp Require Import prelude gmap.
From Verif Require Import Postings_Model PeerServer_Model.
Local Open Scope N_scope.

(** a client that names itself, and only itself, as the one who acts *)
Definition truthful (e : pevent) : Prop :=
  match e with
  | PReq c h _ q =>
      h = c ∧
      match q with
      | QRegister cn _ | QConnect cn _ | QDeregister cn | QDisconnect cn | QKex cn _ => cn.1 = c
      | QMutuals a => a = c
      end
  | _ => True
  end.

(** the account asked to be registered with the other, or agreed to it *)
Definition wants_register (es : list pevent) (a b : N) : Prop :=
  ∃ h tk x r, PReq a h tk (QRegister (x, b) r) ∈ es ∧ r ≠ Some false.
(** the account asked to be connected to the other, or answered, whatever the answer *)
Definition spoke_of_connecting (es : list pevent) (a b : N) : Prop :=
  ∃ h tk x r, PReq a h tk (QConnect (x, b) r) ∈ es.

(** a client answers only requests it was sent *)
Definition got (seen : list peffect) (c : N) (sg : psig) : Prop :=
  (∃ tk, PSent c tk sg ∈ seen) ∨ PMailed c sg ∈ seen.
Definition asked_before (seen : list peffect) (e : pevent) : Prop :=
  match e with
  | PReq c _ _ (QRegister (_, t) (Some true)) => got seen c (SRegister (t, c) None)
  | PReq c _ _ (QConnect (_, t) (Some _)) => got seen c (SConnect (t, c) None)
  | _ => True
  end.
Fixpoint polite (s : pserver) (seen : list peffect) (es : list pevent) : Prop :=
  match es with
  | [] => True
  | e :: rest =>
      asked_before seen e ∧
      match pstep s e with None => True | Some (s', x) => polite s' (seen ++ x) rest end
  end.

(** a request the server keeps *)
Definition pending (s : pserver) (owner tk : N) (k : kept) : Prop :=
  ∃ m p, ly_map (pv_layer s) !! owner = Some m ∧ m !! tk = Some p ∧ po_sig p = k.
(** a request to connect, between these two *)
Definition connects (a b : N) (k : kept) : Prop :=
  ∃ cn r, k.1 = SConnect cn r ∧ (cn = (a, b) ∨ cn = (b, a)).

Definition peers (s : pserver) (a b : N) : Prop := (a, b) ∈ pv_peers s.
(** what one account is sent or finds in its mailbox *)
Definition addressed_to (t : N) (x : peffect) : bool :=
  match x with PSent to _ _ | PMailed to _ => to =? t | _ => false end.
Definition stuck (x : peffect) : bool := match x with PStuck _ => true | _ => false end.
