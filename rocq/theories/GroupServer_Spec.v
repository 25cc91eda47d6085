(** What the properties of the server's message groups and mailboxes (C28 to C30,
    C39, C61 to C63) say, in terms of the signals the sessions sent and of what
    was sent, mailed and handed out. *)
From stdpp Require Import prelude gmap.
From Verif Require Import GroupServer_Model.
Local Open Scope N_scope.

#[global] Instance note_eq_dec : EqDecision note.
Proof. solve_decision. Defined.

(** who is in a group *)
Definition roster (s : server) (k : gkey) : gset N :=
  match get_group s k with Some g => mg_members g | None => ∅ end.
Notation member s k p := (p ∈ roster s k).
Definition private_group (s : server) (k : gkey) : Prop :=
  ∃ g, get_group s k = Some g ∧ mg_public g = false.

(** what the owner did for a peer: invited it, or accepted it *)
Definition invited (h : list event) (k : gkey) (p : N) : Prop :=
  (∃ pub inv, EReq k.1 (RCreate k.2 pub inv) ∈ h ∧ p ∈ inv) ∨ (∃ inv, EReq k.1 (RAdd k inv) ∈ h ∧ p ∈ inv).
Definition let_in (h : list event) (k : gkey) (p : N) : Prop :=
  invited h k p ∨ EReq k.1 (RAccept p k) ∈ h.
(** what the peer did itself, and what anybody did *)
Definition asked (h : list event) (k : gkey) (p : N) : Prop := ∃ x, EReq p (RRequestJoin x k) ∈ h.
Definition accepted (h : list event) (k : gkey) (p : N) : Prop := ∃ c, EReq c (RAccept p k) ∈ h.

(** how often a note was sent or mailed to a peer *)
Definition is_copy (p : N) (n : note) (e : effect) : bool :=
  match e with
  | Sent q m | Mailed q m => bool_decide (q = p ∧ m = n)
  | MailOut _ _ => false
  end.
Fixpoint copies (p : N) (n : note) (es : list effect) : nat :=
  match es with [] => 0 | e :: rest => (if is_copy p n e then 1 else 0) + copies p n rest end%nat.

(** the events by which a peer can come (back) into a group *)
Definition admits (k : gkey) (p : N) (e : event) : Prop :=
  match e with
  | EReq c (RAccept t k') => t = p ∧ k' = k
  | EReq c (RRequestJoin _ k') => c = p ∧ k' = k
  | EReq c (RCreate id _ _) => c = p ∧ (c, id) = k
  | _ => False
  end.

(** the mail put into a box and the mail handed out, in order *)
Fixpoint mailed (p : N) (es : list effect) : list note :=
  match es with
  | [] => []
  | Mailed q n :: rest => if bool_decide (q = p) then n :: mailed p rest else mailed p rest
  | _ :: rest => mailed p rest
  end.
Fixpoint handed (p : N) (es : list effect) : list note :=
  match es with
  | [] => []
  | MailOut q ns :: rest => if bool_decide (q = p) then ns ++ handed p rest else handed p rest
  | _ :: rest => handed p rest
  end.
Definition box (s : server) (p : N) : list note := default [] (sv_mail s !! p).

(** an invitation or request of [p] is open *)
Definition awaits (s : server) (k : gkey) (p : N) : Prop := ∃ g, get_group s k = Some g ∧ p ∈ mg_pending g.
(** the events that settle it: an acceptance or a refusal that names [p], the owner ends the group or goes *)
Definition settles (k : gkey) (p : N) (e : event) : Prop :=
  match e with
  | EReq _ (RAccept t k') | EReq _ (RDecline t k') => t = p ∧ k' = k
  | EReq c (REnd k') => c = k.1 ∧ k' = k
  | EShutdown c => c = k.1
  | _ => False
  end.
