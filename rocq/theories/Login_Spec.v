(** What users expect of registration, login and deregistration, said with the packets that
    came in, the requests of the user and what the kernel was told. *)
From stdpp Require Import prelude gmap.
From Verif Require Import Login_Model.
Local Open Scope N_scope.

Definition the_node (cf : config) (evs : list event) : node := run cf init evs.
Definition accounts (n : node) : gmap N account := h_store (n_shared n).

(** what the kernel has been told about a session *)
Definition told (n : node) (sid : N) : list kevent := (filter (λ x, x.1 = sid) (n_log n)).*2.

(** who opened a session *)
Definition opened (evs : list event) (sid : N) (i : opening) : Prop := Open sid i ∈ evs.
Definition as_server (n : node) (sid : N) : Prop := ∃ s, n_sess n !! sid = Some s ∧ s_server s = true.
Definition as_client (n : node) (sid : N) : Prop := ∃ s, n_sess n !! sid = Some s ∧ s_server s = false.
Definition ended (n : node) (sid : N) : Prop := ∃ s, n_sess n !! sid = Some s ∧ s_over s = true.

(** the session received the packet *)
Definition received (evs : list event) (sid : N) (p : packet) : Prop := ∃ e, In sid (Recv p e) ∈ evs.

(** The other side has shown that it holds the device key of account [c], and agreed on key [k]. *)
Definition device (cf : config) (evs : list event) (sid c k : N) (a : account) : Prop :=
  ∃ before p e after u,
    evs = before ++ In sid (Recv p e) :: after ∧ p_body p = Syn k u ∧ p_cid p = c ∧
    accounts (the_node cf before) !! c = Some a ∧ p_seal p = Some (r_key (a_static a)).

(** It has also shown the credentials of that account, under the key agreed upon. *)
Definition authenticated (cf : config) (evs : list event) (sid c : N) : Prop :=
  ∃ before p e after k a,
    evs = before ++ In sid (Recv p e) :: after ∧ device cf before sid c k a ∧
    p_body p = ConStage0 (Some (a_creds a)) ∧ p_seal p = Some k.

(** The event takes account [c] away. *)
Definition removes (cf : config) (evs : list event) (ev : event) (c : N) : Prop :=
  is_Some (accounts (the_node cf evs) !! c) ∧ accounts (the_node cf (evs ++ [ev])) !! c = None.

Definition is_success (k : kevent) : bool := match k with KConnectSuccess _ _ _ => true | _ => false end.
Definition is_disconnect (k : kevent) : bool := match k with KDisconnect _ _ => true | _ => false end.
Definition count (f : kevent → bool) (ks : list kevent) : nat := length (List.filter f ks).

(** the tickets that the session has used: that of its opening, those of the SYN packets it got *)
Definition uses_ticket (evs : list event) (sid t : N) : Prop :=
  (∃ i, Open sid i ∈ evs ∧
     match i with Accept t' | OpenRegister t' _ _ | OpenConnect t' _ _ _ _ | OpenTransient t' _ _ _ => t = t' end) ∨
  (∃ p, received evs sid p ∧ p_ticket p = t ∧ match p_body p with Syn _ _ => True | _ => False end).

(** every registration names the account of the user it registers *)
Definition honest_registrations (cf : config) (evs : list event) : Prop :=
  ∀ sid p q tr k p' c, received evs sid p → received evs sid p' →
    p_body p = RegStage0 q tr k → p_body p' = RegStage2 c → p_cid p = f_cid cf (c_user c).

(** Two sessions that are connected: what one sends the other receives, in order, as long as
    there is something and [fuel] lasts. *)
Definition party : Type := shared * sess * list kevent.
Fixpoint receive (cf : config) (sid : N) (e : oracle) (x : party) (ps : list packet) : party * list packet :=
  match ps with
  | [] => (x, [])
  | p :: rest =>
      let '(h, s, ks) := x in
      let '(h, s, out, ks') := act cf sid h s (Recv p e) in
      let '(x, out') := receive cf sid e (h, s, ks ++ ks') rest in
      (x, out ++ out')
  end.
(** first [b] receives [ps], then [a] what [b] answers, and so on *)
Fixpoint talk (fuel : nat) (cfa cfb : config) (sida sidb : N) (ea eb : oracle) (a b : party) (ps : list packet) : party * party :=
  match fuel with
  | O => (a, b)
  | S fuel =>
      match ps with
      | [] => (a, b)
      | _ =>
          let '(b, out) := receive cfb sidb eb b ps in
          let '(b', a') := talk fuel cfb cfa sidb sida eb ea b a out in (a', b')
      end
  end.

(** what the kernel is told about the session at this event *)
Definition news (cf : config) (evs : list event) (ev : event) (sid : N) : list kevent :=
  drop (length (told (the_node cf evs) sid)) (told (the_node cf (evs ++ [ev])) sid).

(** the packets about deregistration that make a node delete an account *)
Definition deletes (p : packet) : Prop := p_body p = DeregStage0 ∨ p_body p = DeregSuccess.

(** the session is logged in and the packet is under its current key *)
Definition under_session_key (n : node) (sid : N) (p : packet) : Prop :=
  ∃ s r, n_sess n !! sid = Some s ∧ s_state s = Connected ∧ s_conn s = Some r ∧ p_seal p = Some (r_key r).

(** the account that the session is about *)
Definition session_account (n : node) (sid : N) (a : account) : Prop :=
  ∃ s, n_sess n !! sid = Some s ∧ s_cnac s = Some a.

(** the user has opened the session with these credentials *)
Definition proposed (evs : list event) (sid : N) (c : creds) : Prop :=
  ∃ t k, Open sid (OpenRegister t k c) ∈ evs ∨ (∃ cid u, Open sid (OpenConnect t k cid c u) ∈ evs) ∨
         (c_pass c = None ∧ ∃ u, Open sid (OpenTransient t k (c_user c) u) ∈ evs).

(** the session received no FAILURE packet of the login *)
Definition no_failure (evs : list event) (sid : N) : Prop :=
  ∀ p, received evs sid p → match p_body p with ConFailure _ => False | _ => True end.
(** the session received no request for deregistration *)
Definition no_deregister (evs : list event) (sid : N) : Prop := ∀ p, received evs sid p → p_body p ≠ DeregStage0.
(** no other session has used the tickets of this one *)
Definition own_tickets (evs : list event) (sid : N) : Prop :=
  ∀ sid' t, uses_ticket evs sid t → uses_ticket evs sid' t → sid' = sid.

(** the key that a logged-in session uses *)
Definition session_key (n : node) (sid : N) (r : ratchet) : Prop :=
  ∃ s, n_sess n !! sid = Some s ∧ s_state s = Connected ∧ s_conn s = Some r.
(** the table of the sessions that are logged in shows the session under the account *)
Definition online (n : node) (c sid : N) : Prop := h_online (n_shared n) !! c = Some sid.
(** everything works, whatever becomes of the holes *)
Definition works (e : oracle) : Prop := e_proceed e = true ∧ e_upgrade e = true ∧ e_store e = true.

(** the ticket of the request that opened the session *)
Definition request (i : opening) : N :=
  match i with Accept t | OpenRegister t _ _ | OpenConnect t _ _ _ _ | OpenTransient t _ _ _ => t end.
(** the answer to an attempt to register or to log in bears the ticket *)
Definition answers (t : N) (k : kevent) : Prop :=
  match k with
  | KRegisterOkay t' _ | KRegisterFailure t' _ | KConnectSuccess t' _ _ | KConnectFail t' _ _ | KError t' => t' = t
  | KDeRegistration _ _ _ | KDisconnect _ _ => True
  end.
(** the session received no SYN *)
Definition no_syn (evs : list event) (sid : N) : Prop :=
  ∀ p, received evs sid p → match p_body p with Syn _ _ => False | _ => True end.
