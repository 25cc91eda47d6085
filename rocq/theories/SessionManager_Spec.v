(** What users rely on from the session manager, told from the history of
    events and answers alone. *)
From Coq Require Import ZifyBool ZifyNat ZifyN.
From stdpp Require Import prelude gmap.
From Verif Require Import SessionManager_Model.
Local Open Scope N_scope.

Notation sm_hist := (list (N * sm_event * sm_out)).

(** The attempt an event belongs to. *)
Definition who (e : sm_event) : option N :=
  match e with
  | ESyn sid _ | EDropped sid | ETimeout sid => Some sid
  | _ => None
  end.

(** A clearance: for which account, since when, and whether the attempt has
    committed. *)
Notation clearance := (N * N * bool)%type.

(** An attempt is given a clearance by the answer [OCleared].  It keeps it
    when it commits in time; it loses it when it fails or is abandoned
    before that, and when its connection begins to end. *)
Definition note (h : gmap N clearance) (r : N * sm_event * sm_out)
  : gmap N clearance :=
  let '(now, e, o) := r in
  match o, who e with
  | OCleared cid, Some sid => <[sid := (cid, now, false)]> h
  | _, _ =>
      match e with
      | ECommit sid =>
          match h !! sid with
          | Some (cid, t, false) =>
              if now <? t + 30 then <[sid := (cid, t, true)]> h
              else delete sid h
          | _ => h
          end
      | EFail sid | EAbandon sid =>
          match h !! sid with
          | Some (_, _, false) => delete sid h
          | _ => h
          end
      | EDisc sid | EClear sid => delete sid h
      | _ => h
      end
  end.

Definition clearances (h : sm_hist) : gmap N clearance := fold_left note h ∅.

(** Attempt [sid] holds a clearance for [cid]: it has committed, or its
    reservation has not lapsed. *)
Definition holds (h : sm_hist) (now sid cid : N) : Prop :=
  ∃ t b, clearances h !! sid = Some (cid, t, b) ∧ (b = true ∨ now < t + 30).

(** C32: whenever an attempt is cleared for an account, no attempt holds a
    clearance for that account. *)
Definition one_clearance (ok : mgr → list sm_event → Prop) : Prop :=
  ∀ es s h e s' cid,
    ok sm0 (es ++ [e]) →
    sm_run sm0 es = (s, h) → sm_step s e = (s', OCleared cid) →
    ∀ sid, ¬ holds h (sm_now s) sid cid.

(** The restriction under which C32 is proved. *)
Definition calm_ev (s : mgr) (e : sm_event) : Prop :=
  match e with
  | EOpen addr =>
      (* no two connections from one address at a time, no two connections
         accepted at the same instant *)
      sm_prov s !! addr = None ∧
      (∀ sid x, sm_all s !! sid = Some x → ss_init x ≠ sm_now s)
  | ESyn sid cid =>
      (* no SYN on a socket that already has an account, and none for an
         account whose session is just ending *)
      (∀ x, sm_all s !! sid = Some x → ss_cid x = None) ∧
      (sm_step s e).2 ≠ OWaits
  | ECommit sid | EFail sid =>
      (* a SYN is settled before its reservation lapses *)
      ∀ x cid t, sm_all s !! sid = Some x → ss_try x = TClear cid t →
                 sm_now s < t + 30
  | ERegFail _ => False
  | _ => True
  end.

Fixpoint calm (s : mgr) (es : list sm_event) : Prop :=
  match es with
  | [] => True
  | e :: es => calm_ev s e ∧ calm (sm_step s e).1 es
  end.

(** C33: what it means that a session is registered. *)
Definition registered (s : mgr) (cid sid : N) : Prop :=
  sm_sessions s !! cid = Some sid.
Definition provisional (s : mgr) (addr sid : N) : Prop :=
  sm_prov s !! addr = Some sid.

(** All connections were accepted at different instants. *)
Fixpoint distinct_instants (s : mgr) (es : list sm_event) : Prop :=
  match es with
  | [] => True
  | e :: es =>
      (match e with
       | EOpen _ =>
           ∀ sid x, sm_all s !! sid = Some x → ss_init x ≠ sm_now s
       | _ => True
       end) ∧ distinct_instants (sm_step s e).1 es
  end.

(** C79: a connected account is known to the peer layer. *)
Definition known_while_connected (ok : mgr → list sm_event → Prop) : Prop :=
  ∀ es, ok sm0 es →
  let s := (sm_run sm0 es).1 in
  ∀ sid x cid, sm_all s !! sid = Some x → ss_state x = Connected →
    ss_cid x = Some cid → registered s cid sid → cid ∈ sm_layer s.

(** The restriction under which C79 is proved: the connection is completed
    only after all older sessions of the account have been torn down, with
    their clean-up of the peer layer. *)
Fixpoint settled (s : mgr) (es : list sm_event) : Prop :=
  match es with
  | [] => True
  | e :: es =>
      (match e with
       | EConnected sid =>
           ∀ x cid, sm_all s !! sid = Some x → ss_cid x = Some cid →
             cid ∉ sm_tasks s ∧
             ∀ sid' y, sid' ≠ sid → sm_all s !! sid' = Some y →
               ss_cid y = Some cid → ss_phase y = Gone
       | _ => True
       end) ∧ settled (sm_step s e).1 es
  end.
