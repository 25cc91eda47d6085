(** Registration, login and deregistration: the properties. *)
From stdpp Require Import prelude gmap.
From Verif Require Import Login_Model Login_Spec Login_Proofs.
Local Open Scope N_scope.

(** ** Concrete histories *)

Definition demo : config := mk_config (λ u, u + 100) (λ _, true) true.
Definition pw (u : N) : creds := mk_creds u (Some (u + 1000)).
Definition broken : oracle := mk_oracle true true true false false.
Definition get (sid c t : N) (k : option N) (b : body) : event := In sid (Recv (mk_packet c t k b) usual).

(** a user registers at the server, the first packet naming account [hdr] *)
Definition srv_register (sid u hdr k : N) : list event :=
  [Open sid (Accept (50 + sid)); get sid hdr 3 None (RegStage0 Good false k); get sid hdr 3 (Some k) (RegStage2 (pw u)); In sid (StreamEnds false)].
(** and logs in; [k] is the device key, [k'] that of the session *)
Definition srv_login (sid u t k k' : N) : list event :=
  [Open sid (Accept (50 + sid)); get sid (u + 100) t (Some k) (Syn k' false); get sid (u + 100) t (Some k') PreStage0;
   get sid (u + 100) t (Some k') (ConStage0 (Some (pw u))); get sid (u + 100) t (Some k') ConSuccessAck].
(** the same at the client *)
Definition cl_register (sid u k : N) : list event :=
  [Open sid (OpenRegister (60 + sid) k (pw u)); get sid (u + 100) 3 None (RegStage1 Good); get sid (u + 100) 3 (Some k) RegSuccess].
Definition cl_login (sid u t k k' : N) : list event :=
  [Open sid (OpenConnect t k' (u + 100) (pw u) false); get sid (u + 100) t (Some k) SynAck; get sid (u + 100) t (Some k') BeginConnect;
   get sid (u + 100) t (Some k') ConSuccess].

Example the_server : told (the_node demo (srv_register 0 1 101 21 ++ srv_login 1 1 9 21 31)) 1 = [KConnectSuccess 9 101 101].
Proof. vm_compute. reflexivity. Qed.
Example the_client : told (the_node demo (cl_register 0 1 21 ++ cl_login 1 1 9 21 31)) 0 = [KRegisterOkay 60 101] ∧
  told (the_node demo (cl_register 0 1 21 ++ cl_login 1 1 9 21 31)) 1 = [KConnectSuccess 9 101 101].
Proof. vm_compute. done. Qed.

(** ** C119 Only the owner of an account deregisters it

    Full statement: if a session of the server takes account [c] away, the other side has
    logged in to [c] in that session. It is false: the processor deletes the account that the
    header names (DG 76, 80-94, 144), which is not compared with the account of the session. *)
Theorem C119_refuted : ∃ cf evs sid i c,
  as_server (the_node cf (evs ++ [In sid i])) sid ∧ removes cf evs (In sid i) c ∧ ¬ authenticated cf evs sid c.
Proof.
  exists demo, (srv_register 0 1 101 21 ++ srv_register 1 2 102 22 ++ srv_login 2 1 9 21 31), 2, (Recv (mk_packet 102 0 (Some 31) DeregStage0) usual), 102.
  split; [|split; [split|]].
  - eexists. split; vm_compute; reflexivity.
  - vm_compute. eauto.
  - vm_compute. reflexivity.
  - intros H%authenticated_has_syn. by vm_compute in H.
Qed.

(** What holds: the session has logged in to some account and the packet, under the session
    key, names [c]; or the session has ended and [c] is a transient account whose device key
    the other side has. Missing: that the account it logged in to is [c]. *)
Theorem C119_partial cf evs sid i c :
  removes cf evs (In sid i) c → as_server (the_node cf (evs ++ [In sid i])) sid →
  (∃ p e c', i = Recv p e ∧ deletes p ∧ p_cid p = c ∧ under_session_key (the_node cf evs) sid p ∧ authenticated cf evs sid c') ∨
  (ended (the_node cf (evs ++ [In sid i])) sid ∧ ∃ k a, device cf (evs ++ [In sid i]) sid c k a ∧ transient a = true).
Proof. apply removal_server. Qed.

Example C119_example : removes demo (srv_register 0 1 101 21 ++ srv_login 1 1 9 21 31) (get 1 101 0 (Some 31) DeregStage0) 101.
Proof. split; vm_compute; eauto. Qed.

(** ** C120 A client's account is deleted only at the request of its user

    Full statement: if a client session takes a non-transient account away, its user has asked
    for a deregistration in that session. False: a packet of the server suffices, and it may
    name an account of another server (DG 194-235). *)
Theorem C120_refuted : ∃ cf evs sid i c,
  as_client (the_node cf (evs ++ [In sid i])) sid ∧ removes cf evs (In sid i) c ∧ (∀ t, In sid (AskDeregister t) ∉ evs) ∧
  (∀ a, session_account (the_node cf (evs ++ [In sid i])) sid a → a_cid a ≠ c).
Proof.
  exists demo, (cl_register 0 1 21 ++ cl_register 1 2 22 ++ cl_login 2 1 9 21 31), 2, (Recv (mk_packet 102 0 (Some 31) DeregSuccess) usual), 102.
  split; [|split; [split|split]].
  - eexists. split; vm_compute; reflexivity.
  - vm_compute. eauto.
  - vm_compute. reflexivity.
  - intros t H%asked_in. by vm_compute in H.
  - intros a (s & Hs & Ha). vm_compute in Hs. apply (inj Some) in Hs. subst s. vm_compute in Ha. injection Ha as <-. done.
Qed.

(** What holds: at least the session is logged in and the packet comes under its key, that is,
    from the server (or the account is transient and the session has ended).
    Missing: the request of the user. *)
Theorem C120_partial cf evs ev c : removes cf evs ev c →
  ∃ sid i, ev = In sid i ∧
    ((∃ p e, i = Recv p e ∧ deletes p ∧ p_cid p = c ∧ under_session_key (the_node cf evs) sid p) ∨
     (ended (the_node cf (evs ++ [ev])) sid ∧ ∃ a, session_account (the_node cf (evs ++ [ev])) sid a ∧ transient a = true ∧ a_cid a = c)).
Proof. apply removal. Qed.

Example C120_example : removes demo (cl_register 0 1 21 ++ cl_login 1 1 9 21 31 ++ [In 1 (AskDeregister 5)]) (get 1 101 0 (Some 31) DeregSuccess) 101.
Proof. split; vm_compute; eauto. Qed.

(** ** C121 A deregistration that is reported has happened

    Full statement: when the kernel is told that the deregistration of [c] succeeded, account
    [c] was there and is gone. False for the DeregSuccess packet: the outcome of the deletion
    is logged, and success is told (DG 194-235). *)
Theorem C121_refuted : ∃ cf evs sid i c t,
  KDeRegistration c t true ∈ news cf evs (In sid i) sid ∧ is_Some (accounts (the_node cf (evs ++ [In sid i])) !! c).
Proof.
  exists demo, (cl_register 0 1 21 ++ cl_login 1 1 9 21 31 ++ [In 1 (AskDeregister 5)]), 1, (Recv (mk_packet 101 0 (Some 31) DeregSuccess) broken), 101, (Some 5).
  split.
  - vm_compute. left.
  - vm_compute. eauto.
Qed.

(** What holds: it is so for a request that is being served. Missing: the side that asked. *)
Theorem C121_partial cf evs sid p e c t ok :
  KDeRegistration c t ok ∈ news cf evs (In sid (Recv p e)) sid → p_body p = DeregStage0 →
  c = p_cid p ∧ (ok = true → removes cf evs (In sid (Recv p e)) c) ∧
  (ok = false → accounts (the_node cf (evs ++ [In sid (Recv p e)])) !! c = accounts (the_node cf evs) !! c).
Proof. apply dereg_truth. Qed.

Example C121_example : news demo (srv_register 0 1 101 21 ++ srv_login 1 1 9 21 31) (get 1 101 0 (Some 31) DeregStage0) 1 =
  [KDeRegistration 101 None true; KDisconnect 9 101].
Proof. vm_compute. reflexivity. Qed.

(** ** C122 A login is reported at the server only after device key and credentials

    For every history: a server session that has told of a login to account [c] had received a
    SYN under the device key of [c] and afterwards, under the key agreed upon there, the
    credentials of [c]. *)
Theorem C122_login_entitled cf evs sid t c ch :
  as_server (the_node cf evs) sid → KConnectSuccess t c ch ∈ told (the_node cf evs) sid → authenticated cf evs sid c.
Proof.
  intros (s & Hs & Hsv) Hin. destruct (srv_holds cf evs sid s Hs Hsv) as [_ Hf].
  rewrite Forall_forall in Hf. by destruct (Hf _ Hin t c ch eq_refl).
Qed.

(** also: keys are in use only then *)
Theorem C122_connected cf evs sid r :
  as_server (the_node cf evs) sid → session_key (the_node cf evs) sid r → ∃ c, authenticated cf evs sid c.
Proof.
  intros (s & Hs & Hsv) (s' & Hs' & Hst & _). rewrite Hs in Hs'. injection Hs' as <-.
  destruct (srv_holds cf evs sid s Hs Hsv) as [Hv _]. apply (v_conn _ _ _ _ Hv). by left.
Qed.

Example C122_example :
  KConnectSuccess 9 101 101 ∈ told (the_node demo (srv_register 0 1 101 21 ++ srv_login 1 1 9 21 31)) 1 ∧
  told (the_node demo (srv_register 0 1 101 21 ++ [Open 1 (Accept 51); get 1 101 9 (Some 22) (Syn 31 false); get 1 101 9 (Some 31) PreStage0;
    get 1 101 9 (Some 31) (ConStage0 (Some (pw 1))); get 1 101 9 (Some 31) ConSuccessAck])) 1 = [].
Proof. split; vm_compute; [left|reflexivity]. Qed.

(** ** C123 At most one login is reported per session *)
Theorem C123_at_most_one_login cf evs sid s : n_sess (the_node cf evs) !! sid = Some s → (count is_success (told (the_node cf evs) sid) ≤ 1)%nat.
Proof. intros Hs. destruct (once_holds cf evs sid s Hs) as [Hy _]. by apply (y_one _ _ Hy). Qed.

Example C123_example : count is_success (told (the_node demo (srv_register 0 1 101 21 ++ srv_login 1 1 9 21 31 ++
  [get 1 101 9 (Some 31) (ConStage0 (Some (pw 1))); get 1 101 9 (Some 31) ConSuccessAck])) 1) = 1%nat.
Proof. vm_compute. reflexivity. Qed.

(** ** C124 Every attempt to register or to log in is answered

    Full statement: when a session that the user has opened is over, the kernel has been told
    something about it. False: a server without transient accounts refuses with a FAILURE
    packet and closes the stream; the client drops the packet, for it comes too early
    (RG 446-450), and a stream that was closed is no error. *)
Theorem C124_refuted : ∃ cf srv evs sid (refusal : packet) h s',
  (* the server *)
  act srv 0 h (blank true 50 SocketJustOpened None (mk_reg G0 None None None) false None)
     (Recv (mk_packet 101 7 None (RegStage0 Good true 21)) usual) = (h, s', [refusal], []) ∧ s_over s' = true ∧
  (* the client *)
  evs = [Open sid (OpenTransient 7 21 1 false); In sid (Recv refusal usual); In sid (StreamEnds false)] ∧
  as_client (the_node cf evs) sid ∧ ended (the_node cf evs) sid ∧ told (the_node cf evs) sid = [].
Proof.
  eexists demo, (mk_config (λ u, u + 100) (λ _, true) false), _, 0, (mk_packet 101 7 None (RegFailure why_transient)), (mk_shared ∅ ∅ ∅), _.
  split; [reflexivity|]. split; [reflexivity|]. split; [reflexivity|].
  split; [|split].
  - eexists. split; vm_compute; reflexivity.
  - eexists. split; vm_compute; reflexivity.
  - vm_compute. reflexivity.
Qed.

(** What holds: only a stream that is closed without an error leaves an attempt unanswered. *)
Theorem C124_partial cf evs sid :
  as_client (the_node cf evs) sid → ended (the_node cf evs) sid → told (the_node cf evs) sid = [] → In sid (StreamEnds false) ∈ evs.
Proof.
  intros (s & Hs & Hsv) (s' & Hs' & Hov) Ht. rewrite Hs in Hs'. injection Hs' as <-. by eapply answered_holds.
Qed.

Example C124_example : told (the_node demo [Open 0 (OpenTransient 7 21 1 false); In 0 (StreamEnds true)]) 0 = [KError 7] ∧
  told (the_node demo [Open 0 (OpenRegister 7 21 (pw 1)); get 0 101 7 None (RegStage1 Good); get 0 101 7 None (RegFailure why_account)]) 0 = [KRegisterFailure 7 why_account; KError 7].
Proof. vm_compute. done. Qed.

(** ** C125 A login that was reported is followed by exactly one disconnect

    Full statement: when a server session that has told of a login is over, it has told of
    exactly one disconnect. False for two reasons: a FAILURE packet of the logged-in client
    silences the session (CN 252-283), and so does a ticket that an earlier session has used,
    the client choosing its tickets (SE 2514-2524; nothing is ever taken from the tracker). *)
Theorem C125_refuted : ∃ cf evs sid t c ch,
  as_server (the_node cf evs) sid ∧ ended (the_node cf evs) sid ∧ own_tickets evs sid ∧
  KConnectSuccess t c ch ∈ told (the_node cf evs) sid ∧ count is_disconnect (told (the_node cf evs) sid) = 0%nat.
Proof.
  exists demo, (srv_register 0 1 101 21 ++ srv_login 1 1 9 21 31 ++ [get 1 101 9 (Some 31) (ConFailure 0)]), 1, 9, 101, 101.
  split; [eexists; split; vm_compute; reflexivity|]. split; [eexists; split; vm_compute; reflexivity|].
  split; [|split; [vm_compute; left|vm_compute; reflexivity]].
  intros sid' t H1 H2.
  assert (Hsid : ∀ sid t, uses_ticket (srv_register 0 1 101 21 ++ srv_login 1 1 9 21 31 ++ [get 1 101 9 (Some 31) (ConFailure 0)]) sid t →
     (sid = 0 ∧ t = 50) ∨ (sid = 1 ∧ (t = 51 ∨ t = 9))).
  { clear. intros sid t [(i & H & Ht)|(p & [e H] & Ht & Hb)].
    - unfold srv_register, srv_login, get in H. cbn [app] in H.
      repeat (apply elem_of_cons in H as [H|H]); try (injection H as -> ->; subst t); try discriminate; try (by apply elem_of_nil in H); [left|right]; auto.
    - unfold srv_register, srv_login, get in H. cbn [app] in H.
      repeat (apply elem_of_cons in H as [H|H]); try discriminate; try (by apply elem_of_nil in H); injection H as -> -> _; cbn in Hb, Ht; try done; subst t; right; auto. }
  destruct (Hsid _ _ H1) as [[? ?]|[? [?|?]]], (Hsid _ _ H2) as [[? ?]|[? [?|?]]]; subst; done.
Qed.

Theorem C125_ticket_refuted : ∃ cf evs sid t c ch,
  as_server (the_node cf evs) sid ∧ ended (the_node cf evs) sid ∧ no_failure evs sid ∧
  KConnectSuccess t c ch ∈ told (the_node cf evs) sid ∧ count is_disconnect (told (the_node cf evs) sid) = 0%nat.
Proof.
  exists demo, (srv_register 0 1 101 21 ++ srv_login 1 1 9 21 31 ++ [In 1 (StreamEnds false)] ++ srv_login 2 1 9 21 32 ++ [In 2 (StreamEnds false)]), 2, 9, 101, 101.
  split; [eexists; split; vm_compute; reflexivity|]. split; [eexists; split; vm_compute; reflexivity|].
  split; [|split; [vm_compute; left|vm_compute; reflexivity]].
  intros p [e H]. unfold srv_register, srv_login, get in H. cbn [app] in H.
  repeat (apply elem_of_cons in H as [H|H]); try discriminate; try (by apply elem_of_nil in H); injection H as -> _; done.
Qed.

(** What holds: exactly one, about the account that logged in, if the client sends no FAILURE
    and no other session has used the tickets of the session. Missing: these two conditions. *)
Theorem C125_partial cf evs sid t c ch :
  as_server (the_node cf evs) sid → ended (the_node cf evs) sid → KConnectSuccess t c ch ∈ told (the_node cf evs) sid →
  no_failure evs sid → own_tickets evs sid →
  count is_disconnect (told (the_node cf evs) sid) = 1%nat ∧ ∀ t' c', KDisconnect t' c' ∈ told (the_node cf evs) sid → c' = c.
Proof. apply disconnect_once. Qed.

(** In every session, of server or client, there is never more than one. *)
Theorem C125_at_most_one cf evs sid s : n_sess (the_node cf evs) !! sid = Some s → (count is_disconnect (told (the_node cf evs) sid) ≤ 1)%nat.
Proof. intros Hs. by destruct (atmost_holds cf evs sid s Hs). Qed.

Example C125_example : told (the_node demo (srv_register 0 1 101 21 ++ srv_login 1 1 9 21 31 ++ [In 1 (StreamEnds true)])) 1 =
  [KConnectSuccess 9 101 101; KDisconnect 9 101].
Proof. vm_compute. reflexivity. Qed.

(** ** C126 A disconnect is reported only of what was reported to be connected

    Full statement: a disconnect of [c] is preceded by a login to [c] in the session. False: a
    SYN is enough, the connection need not go further (SE 2549-2572). *)
Theorem C126_refuted : ∃ cf evs sid t c,
  as_server (the_node cf evs) sid ∧ KDisconnect t c ∈ told (the_node cf evs) sid ∧ (∀ t' ch, KConnectSuccess t' c ch ∉ told (the_node cf evs) sid).
Proof.
  exists demo, (srv_register 0 1 101 21 ++ [Open 1 (Accept 51); get 1 101 9 (Some 21) (Syn 31 false); In 1 (StreamEnds false)]), 1, 9, 101.
  split; [eexists; split; vm_compute; reflexivity|]. split; [vm_compute; left|].
  intros t' ch. vm_compute. intros H. apply elem_of_list_singleton in H. done.
Qed.

(** What holds: the other side has shown the device key of [c]. Missing: the credentials. *)
Theorem C126_partial cf evs sid t c :
  as_server (the_node cf evs) sid → KDisconnect t c ∈ told (the_node cf evs) sid → ∃ k a, device cf evs sid c k a.
Proof. intros (s & Hs & Hsv) Hin. by eapply (disc_holds cf evs sid s Hs Hsv). Qed.

Example C126_example : told (the_node demo [Open 1 (Accept 51); get 1 101 9 (Some 21) (Syn 31 false); In 1 (StreamEnds false)]) 1 = [].
Proof. vm_compute. reflexivity. Qed.

(** ** C127 The channel that comes with a login is that of the account

    Full statement: the number of the channel in ConnectSuccess at the server is the account's.
    False: it is the number in the header of the STAGE0 packet (CN 153-156). *)
Theorem C127_refuted : ∃ cf evs sid t c ch,
  as_server (the_node cf evs) sid ∧ KConnectSuccess t c ch ∈ told (the_node cf evs) sid ∧ ch ≠ c ∧ is_Some (accounts (the_node cf evs) !! ch).
Proof.
  exists demo, (srv_register 0 1 101 21 ++ srv_register 1 2 102 22 ++ [Open 2 (Accept 52); get 2 101 9 (Some 21) (Syn 31 false); get 2 101 9 (Some 31) PreStage0;
    get 2 102 9 (Some 31) (ConStage0 (Some (pw 1))); get 2 101 9 (Some 31) ConSuccessAck]), 2, 9, 101, 102.
  split; [eexists; split; vm_compute; reflexivity|]. split; [vm_compute; left|]. split; [done|]. vm_compute. eauto.
Qed.

(** What holds: it is a number that a packet of the session bears, so it is the account's if the
    client puts no other into its packets. Missing: the comparison. *)
Theorem C127_partial cf evs sid t c ch :
  as_server (the_node cf evs) sid → KConnectSuccess t c ch ∈ told (the_node cf evs) sid →
  (∀ p, received evs sid p → p_cid p = c) → ch = c.
Proof.
  intros (s & Hs & Hsv) Hin Hp. destruct (srv_holds cf evs sid s Hs Hsv) as [_ Hf].
  rewrite Forall_forall in Hf. destruct (Hf _ Hin t c ch eq_refl) as (_ & p & Hr & <-). by apply Hp.
Qed.

Example C127_example : told (the_node demo (srv_register 0 1 101 21 ++ srv_login 1 1 9 21 31)) 1 = [KConnectSuccess 9 101 101].
Proof. vm_compute. reflexivity. Qed.

(** ** C128 The keys of a session bear the account that logged in

    Full statement: the ratchet that a connected server session uses bears an account to which
    the other side has logged in. False after a re-key: the ratchets are made with the number
    of the static one, which is what the first packet of the registration named (RG 108, 114-115),
    while the account has the number of the user name (AM 230-232, 264-265). *)
Theorem C128_refuted : ∃ cf evs sid r,
  as_server (the_node cf evs) sid ∧ session_key (the_node cf evs) sid r ∧ is_Some (accounts (the_node cf evs) !! r_cid r) ∧
  ¬ authenticated cf evs sid (r_cid r).
Proof.
  exists demo, (srv_register 0 1 101 21 ++ srv_register 1 2 101 22 ++ [Open 2 (Accept 52); get 2 102 9 (Some 22) (Syn 31 false); get 2 102 9 (Some 31) PreStage0;
    get 2 102 9 (Some 31) (ConStage0 (Some (pw 2))); get 2 102 9 (Some 31) ConSuccessAck; In 2 (Rekey 41)]), 2, (mk_ratchet 101 41).
  split; [eexists; split; vm_compute; reflexivity|]. split; [eexists; split; [vm_compute; reflexivity|]; vm_compute; done|].
  split; [vm_compute; eauto|]. intros H%authenticated_has_syn. by vm_compute in H.
Qed.

(** What holds: it is so if every registration named the account of its user. *)
Theorem C128_partial cf evs sid r :
  honest_registrations cf evs → as_server (the_node cf evs) sid → session_key (the_node cf evs) sid r → authenticated cf evs sid (r_cid r).
Proof.
  intros Hh (s & Hs & Hsv) (s' & Hs' & Hst & Hr). rewrite Hs in Hs'. injection Hs' as <-. by eapply honest_key.
Qed.

Example C128_example : session_key (the_node demo (srv_register 0 1 101 21 ++ srv_login 1 1 9 21 31 ++ [In 1 (Rekey 41)])) 1 (mk_ratchet 101 41).
Proof. eexists. split; [vm_compute; reflexivity|]. vm_compute. done. Qed.

(** ** C129 A transient account does not outlive the session it was made for

    Full statement: when no session is left, neither is a transient account. False: the account
    is made at the registration, and the session knows of it only after the SYN. *)
Theorem C129_refuted : ∃ cf evs c a,
  (∀ sid s, n_sess (the_node cf evs) !! sid = Some s → s_over s = true) ∧ accounts (the_node cf evs) !! c = Some a ∧ transient a = true.
Proof.
  exists demo, [Open 0 (Accept 50); get 0 101 3 None (RegStage0 Good true 21); get 0 101 3 (Some 21) (RegStage2 (mk_creds 1 None)); In 0 (StreamEnds false)].
  eexists 101, _. split; [|split; [vm_compute; reflexivity|vm_compute; reflexivity]].
  apply (map_Forall_lookup (λ _ s, s_over s = true)). apply (bool_decide_unpack _). vm_compute. exact I.
Qed.

(** What holds: a session that ends takes the transient account with it that it is about. *)
Theorem C129_partial cf evs sid i a :
  ¬ ended (the_node cf evs) sid → ended (the_node cf (evs ++ [In sid i])) sid →
  session_account (the_node cf (evs ++ [In sid i])) sid a → transient a = true →
  accounts (the_node cf (evs ++ [In sid i])) !! a_cid a = None.
Proof. apply transient_gone. Qed.

Example C129_example : removes demo
  [Open 0 (Accept 50); get 0 101 3 None (RegStage0 Good true 21); get 0 101 3 (Some 21) (RegStage2 (mk_creds 1 None)); get 0 101 3 (Some 21) (Syn 31 false)]
  (In 0 (StreamEnds false)) 101.
Proof. split; vm_compute; eauto. Qed.

(** ** C130 Registering leaves the accounts that are there as they are

    Full statement: an account that is there before and after an event is the same. False at
    the client: registering a name at a second server replaces the account of the first, the
    number being that of the name, and with it its keys (AM 280-305). *)
Theorem C130_refuted : ∃ cf evs ev c a a',
  accounts (the_node cf evs) !! c = Some a ∧ accounts (the_node cf (evs ++ [ev])) !! c = Some a' ∧ a_static a ≠ a_static a'.
Proof.
  eexists demo, (cl_register 0 1 21 ++ [Open 1 (OpenRegister 61 22 (mk_creds 1 (Some 77))); get 1 101 3 None (RegStage1 Good)]), (get 1 101 3 (Some 22) RegSuccess), 101, _, _.
  split; [vm_compute; reflexivity|]. split; [vm_compute; reflexivity|]. done.
Qed.

(** What holds: no session of a server changes an account, and a client session only one with
    the user name that its user gave. *)
Theorem C130_partial cf evs ev c a a' :
  accounts (the_node cf evs) !! c = Some a → accounts (the_node cf (evs ++ [ev])) !! c = Some a' → a' ≠ a →
  ∃ sid p e, ev = In sid (Recv p e) ∧ p_body p = RegSuccess ∧ as_client (the_node cf evs) sid ∧
    proposed evs sid (a_creds a') ∧ c = f_cid cf (c_user (a_creds a')).
Proof.
  intros Ha Ha' Hne. destruct (creation cf evs ev c a') as (Hc & sid & p & e & -> & _ & [(_ & Hn & _)|(Hb & Hp & Hcl & _)]); [congruence|done|congruence|].
  by exists sid, p, e.
Qed.

Example C130_example : accounts (the_node demo (srv_register 0 1 101 21 ++ srv_register 1 1 101 22)) !! 101 = Some (mk_account 101 (pw 1) (mk_ratchet 101 21)).
Proof. vm_compute. reflexivity. Qed.

(** ** C131 A client's accounts are those its user has registered

    Full statement: an account that a client session adds has the credentials that the user
    opened the session with. False: the processor does not look at the role; the server may
    play the client and register at it (RG 79-181, 246-337). *)
Theorem C131_refuted : ∃ cf evs sid i c a,
  as_client (the_node cf evs) sid ∧ accounts (the_node cf evs) !! c = None ∧ accounts (the_node cf (evs ++ [In sid i])) !! c = Some a ∧
  ¬ proposed evs sid (a_creds a).
Proof.
  eexists demo, [Open 0 (OpenRegister 60 21 (pw 1)); get 0 102 3 None (RegStage0 Good false 22)], 0, (Recv (mk_packet 102 3 (Some 22) (RegStage2 (pw 2))) usual), 102, _.
  split; [eexists; split; vm_compute; reflexivity|]. split; [vm_compute; reflexivity|]. split; [vm_compute; reflexivity|].
  intros (t & k & [H|[(cid & u & H)|(Hp & u & H)]]); cbn in *;
    repeat (apply elem_of_cons in H as [H|H]); try discriminate; try (by apply elem_of_nil in H).
Qed.

(** What holds: otherwise the server has sent the packets of a registration in that session,
    under the key that it proposed, and there was no such account. *)
Theorem C131_partial cf evs ev c a : accounts (the_node cf evs) !! c ≠ Some a → accounts (the_node cf (evs ++ [ev])) !! c = Some a →
  c = f_cid cf (c_user (a_creds a)) ∧
  ∃ sid p e, ev = In sid (Recv p e) ∧ p_seal p = Some (r_key (a_static a)) ∧
   ((p_body p = RegStage2 (a_creds a) ∧ accounts (the_node cf evs) !! c = None ∧
       ∃ p' q tr, received evs sid p' ∧ p_body p' = RegStage0 q tr (r_key (a_static a)) ∧ p_cid p' = r_cid (a_static a)) ∨
    (p_body p = RegSuccess ∧ proposed evs sid (a_creds a) ∧ as_client (the_node cf evs) sid ∧ r_cid (a_static a) = c)).
Proof. apply creation. Qed.

Example C131_example : accounts (the_node demo (cl_register 0 1 21)) !! 101 = Some (mk_account 101 (pw 1) (mk_ratchet 101 21)).
Proof. vm_compute. reflexivity. Qed.

(** ** C132 Nothing that is not under the session key affects a connected session

    For every node state: to a connected session, a packet about registration, login or
    deregistration that is not under the current key of the session does nothing at all. *)
Theorem C132_only_under_session_key cf n sid s p e :
  n_sess n !! sid = Some s → s_state s = Connected → ¬ under_session_key n sid p → step cf n (In sid (Recv p e)) = (n, []).
Proof. apply connected_deaf. Qed.

Example C132_example : let evs := srv_register 0 1 101 21 ++ srv_login 1 1 9 21 31 in
  told (the_node demo (evs ++ [get 1 101 0 None (Halt 5); get 1 101 0 (Some 21) DeregStage0; get 1 101 0 None (RegFailure 3)])) 1 = [KConnectSuccess 9 101 101] ∧
  told (the_node demo (evs ++ [get 1 101 0 (Some 31) DeregStage0])) 1 = [KConnectSuccess 9 101 101; KDeRegistration 101 None true; KDisconnect 9 101].
Proof. vm_compute. done. Qed.

(** ** C133 A login between two nodes that follow the protocol comes to its end

    For all nodes, accounts, tickets, keys and outcomes of the hole punching: both sides are
    connected under the same key, both kernels are told exactly of this login, with the ticket
    of the client's request and the account's number, and both list the session. *)
Theorem C133_login_completes cfa cfb sida sidb ha hb ea eb c cr st t t' k udp :
  h_store ha !! c = Some (mk_account c cr st) → h_store hb !! c = Some (mk_account c cr st) → r_cid st = c → works ea → works eb →
  ∀ s out sv outv, open_session cfa ha (OpenConnect t k c cr udp) = Some (s, out) → open_session cfb hb (Accept t') = Some (sv, outv) →
  ∃ ha' hb' s1 s2,
    talk 7 cfa cfb sida sidb ea eb (ha, s, []) (hb, sv, []) out = ((ha', s1, [KConnectSuccess t c c]), (hb', s2, [KConnectSuccess t c c])) ∧
    s_state s1 = Connected ∧ s_state s2 = Connected ∧ s_conn s1 = Some (mk_ratchet c k) ∧ s_conn s2 = Some (mk_ratchet c k) ∧
    h_online ha' !! c = Some sida ∧ h_online hb' !! c = Some sidb ∧ h_store ha' = h_store ha ∧ h_store hb' = h_store hb.
Proof. apply login_talk. Qed.

(** With other credentials the client's kernel is told that they were refused, the server's nothing. *)
Theorem C133_refused cfa cfb sida sidb ha hb ea eb c cr cr' cl st t t' k udp :
  h_store ha !! c = Some (mk_account c cr' st) → h_store hb !! c = Some (mk_account c cr st) → r_cid st = c → cl ≠ cr → works ea → works eb →
  ∀ s out sv outv, open_session cfa ha (OpenConnect t k c cl udp) = Some (s, out) → open_session cfb hb (Accept t') = Some (sv, outv) →
  ∃ ha' hb' s1 s2,
    talk 7 cfa cfb sida sidb ea eb (ha, s, []) (hb, sv, []) out = ((ha', s1, [KConnectFail t c why_credentials; KError t]), (hb', s2, [])) ∧
    s_over s1 = true ∧ s_conn s2 = None ∧ s_state s2 ≠ Connected ∧ h_online hb' = h_online hb.
Proof. apply refused_talk. Qed.

Example C133_example : let a := mk_account 101 (pw 1) (mk_ratchet 101 21) in let h := mk_shared {[101 := a]} ∅ ∅ in
  match open_session demo h (OpenConnect 9 31 101 (pw 1) true) with
  | Some (s, out) =>
      let '((_, _, ka), (_, _, kb)) := talk 7 demo demo 1 2 usual usual (h, s, []) (h, blank true 52 SocketJustOpened None (mk_reg G0 None None None) false None, []) out in
      ka = [KConnectSuccess 9 101 101] ∧ kb = [KConnectSuccess 9 101 101]
  | None => False
  end.
Proof. vm_compute. done. Qed.

(** ** C134 A registration takes effect at both nodes or at neither

    Full statement: if the server has made the account in a session, the client whose packets
    it got has it too when both sessions are over. False: nothing is undone when the answer of
    the server is lost. *)
Theorem C134_refuted : ∃ cf evs_client evs_server c,
  (* what the server received is what the client sent *)
  evs_client = [Open 0 (OpenRegister 60 21 (pw 1)); get 0 c 60 None (RegStage1 Good); In 0 (StreamEnds true)] ∧
  evs_server = [Open 0 (Accept 50); get 0 c 60 None (RegStage0 Good false 21); get 0 c 60 (Some 21) (RegStage2 (pw 1)); In 0 (StreamEnds true)] ∧
  ended (the_node cf evs_client) 0 ∧ ended (the_node cf evs_server) 0 ∧
  accounts (the_node cf evs_client) !! c = None ∧ is_Some (accounts (the_node cf evs_server) !! c).
Proof.
  eexists demo, _, _, 101. split; [reflexivity|]. split; [reflexivity|].
  split; [eexists; split; vm_compute; reflexivity|]. split; [eexists; split; vm_compute; reflexivity|]. split; vm_compute; eauto.
Qed.

(** What holds: if no packet is lost, both have the account, with the same credentials and
    keys, and the client's kernel is told so; if the server refuses, neither has it and the
    client's kernel is told why. Missing: a loss of packets. *)
Theorem C134_partial cfa cfb sida sidb ha hb ea eb cr t t' k :
  let c := f_cid cfa (c_user cr) in
  f_cid cfb (c_user cr) = c → c ≠ 0 → works ea → works eb →
  ∀ s out sv outv, open_session cfa ha (OpenRegister t k cr) = Some (s, out) → open_session cfb hb (Accept t') = Some (sv, outv) →
  ∃ ha' hb' s1 s2 told_a,
    talk 7 cfa cfb sida sidb ea eb (ha, s, []) (hb, sv, []) out = ((ha', s1, told_a), (hb', s2, [])) ∧
    (if f_accept cfb cr && bool_decide (h_store hb !! c = None)
     then told_a = [KRegisterOkay t c] ∧ h_store ha' = <[c := mk_account c cr (mk_ratchet c k)]> (h_store ha) ∧
          h_store hb' = <[c := mk_account c cr (mk_ratchet c k)]> (h_store hb)
     else told_a = [KRegisterFailure t why_account; KError t] ∧ h_store ha' = h_store ha ∧ h_store hb' = h_store hb).
Proof.
  intros c Hcb Hc0 Hea Heb s out sv outv Hs Hv.
  destruct (f_accept cfb cr) eqn:Eacc; cbn [andb].
  - case_bool_decide as Hn.
    + destruct (register_talk cfa cfb sida sidb ha hb ea eb cr t t' k Hcb Hc0 Eacc Hn Hea Heb s out sv outv Hs Hv) as (ha' & hb' & s1 & s2 & Ht & H).
      by exists ha', hb', s1, s2, [KRegisterOkay t c].
    + assert (Hi : is_Some (h_store hb !! c)) by (destruct (h_store hb !! c); [eauto|done]).
      destruct (register_refused_talk cfa cfb sida sidb ha hb ea eb cr t t' k Hcb (or_intror Hi) Hea Heb s out sv outv Hs Hv) as (ha' & hb' & s1 & s2 & Ht & H).
      by exists ha', hb', s1, s2, [KRegisterFailure t why_account; KError t].
  - destruct (register_refused_talk cfa cfb sida sidb ha hb ea eb cr t t' k Hcb (or_introl Eacc) Hea Heb s out sv outv Hs Hv) as (ha' & hb' & s1 & s2 & Ht & H).
    by exists ha', hb', s1, s2, [KRegisterFailure t why_account; KError t].
Qed.

Example C134_example : let h := mk_shared ∅ ∅ ∅ in
  match open_session demo h (OpenRegister 9 31 (pw 1)) with
  | Some (s, out) =>
      let '((ha, _, ka), (hb, _, kb)) := talk 7 demo demo 1 2 usual usual (h, s, []) (h, blank true 52 SocketJustOpened None (mk_reg G0 None None None) false None, []) out in
      ka = [KRegisterOkay 9 101] ∧ h_store ha !! 101 = h_store hb !! 101
  | None => False
  end.
Proof. vm_compute. done. Qed.

(** ** C135 Only sessions that are alive are listed as online

    Full statement: an account is listed only with a session that is not over. False: after a
    FAILURE packet the session no longer knows which entry is its own (CN 267, SM 590). *)
Theorem C135_refuted : ∃ cf evs sid c, as_server (the_node cf evs) sid ∧ online (the_node cf evs) c sid ∧ ended (the_node cf evs) sid.
Proof.
  exists demo, (srv_register 0 1 101 21 ++ srv_login 1 1 9 21 31 ++ [get 1 101 9 (Some 31) (ConFailure 0)]), 1, 101.
  split; [eexists; split; vm_compute; reflexivity|]. split; [vm_compute; reflexivity|]. eexists; split; vm_compute; reflexivity.
Qed.

(** What holds: it is so for server sessions that have received no FAILURE and no request for a
    deregistration. *)
Theorem C135_partial cf evs sid c :
  as_server (the_node cf evs) sid → no_failure evs sid → no_deregister evs sid → online (the_node cf evs) c sid → ¬ ended (the_node cf evs) sid.
Proof.
  intros (s & Hs & Hsv) Hnf Hnd Hon (s' & Hs' & Hov). rewrite Hs in Hs'. injection Hs' as <-.
  destruct (listed_holds cf evs c sid Hon s Hs Hsv Hnf Hnd) as (H & _). congruence.
Qed.

Example C135_example : let evs := srv_register 0 1 101 21 ++ srv_login 1 1 9 21 31 in
  online (the_node demo evs) 101 1 ∧ h_online (n_shared (the_node demo (evs ++ [In 1 (StreamEnds false)]))) !! 101 = None.
Proof. vm_compute. done. Qed.

(** ** C136 The answer to an attempt bears the ticket of the request

    Full statement: what the kernel is told about an attempt to register or to log in that the
    user made with ticket [t] bears [t]; the waiting call finds its answer by it. False: a SYN of
    the server, which a client does not expect but processes, sets the ticket (PC 81-189). *)
Theorem C136_refuted : ∃ cf evs sid i t c ch,
  as_client (the_node cf evs) sid ∧ opened evs sid i ∧ told (the_node cf evs) sid = [KConnectSuccess t c ch] ∧ t ≠ request i.
Proof.
  exists demo, (cl_register 0 1 21 ++ [Open 1 (OpenConnect 7 31 101 (pw 1) false); get 1 101 99 (Some 21) (Syn 31 false); get 1 101 7 (Some 21) SynAck;
     get 1 101 7 (Some 31) BeginConnect; get 1 101 7 (Some 31) ConSuccess]), 1, (OpenConnect 7 31 101 (pw 1) false), 99, 101, 101.
  split; [eexists; split; vm_compute; reflexivity|]. split; [|split; [vm_compute; reflexivity|done]].
  unfold opened. apply (elem_of_list_lookup_2 _ 3). reflexivity.
Qed.

(** What holds: it is so if the server sends no SYN, whatever tickets its packets bear. *)
Theorem C136_partial cf evs sid :
  as_client (the_node cf evs) sid → no_syn evs sid →
  ∃ i, opened evs sid i ∧ Forall (answers (request i)) (told (the_node cf evs) sid).
Proof.
  intros (s & Hs & Hsv) Hn. destruct (ticketed_holds cf evs sid s Hs) as [(i & Hi & Hr) H].
  exists i. split; [done|]. rewrite Hr. by apply H.
Qed.

Example C136_example : told (the_node demo (cl_register 0 1 21 ++ [Open 1 (OpenConnect 7 31 101 (pw 1) false); get 1 101 55 (Some 21) SynAck;
     get 1 101 66 (Some 31) BeginConnect; get 1 101 77 (Some 31) ConSuccess])) 1 = [KConnectSuccess 7 101 101].
Proof. vm_compute. reflexivity. Qed.

(** ** C137 A session stays listed until it ends or the account logs in again

    For every history of a node: the entry of a session goes only by an event of the session
    itself, which then is over, or by one of another session, whose client has then shown
    device key and credentials of the very account, if it is a session of a server. *)
Theorem C137_stays_listed cf evs ev c sid' :
  online (the_node cf evs) c sid' → ¬ online (the_node cf (evs ++ [ev])) c sid' →
  (∃ i, ev = In sid' i ∧ ended (the_node cf (evs ++ [ev])) sid') ∨
  (∃ sid i, ev = In sid i ∧ sid ≠ sid' ∧ (as_server (the_node cf (evs ++ [ev])) sid → authenticated cf (evs ++ [ev]) sid c)).
Proof. apply displaced. Qed.

(** a second login takes the entry; the end of the first session leaves it *)
Example C137_example : let evs := srv_register 0 1 101 21 ++ srv_login 1 1 9 21 31 ++ srv_login 2 1 8 21 32 in
  online (the_node demo evs) 101 2 ∧ online (the_node demo (evs ++ [In 1 (StreamEnds false)])) 101 2.
Proof. vm_compute. done. Qed.

Print Assumptions C119_refuted.
Print Assumptions C119_partial.
Print Assumptions C120_refuted.
Print Assumptions C120_partial.
Print Assumptions C121_refuted.
Print Assumptions C121_partial.
Print Assumptions C122_login_entitled.
Print Assumptions C122_connected.
Print Assumptions C123_at_most_one_login.
Print Assumptions C124_refuted.
Print Assumptions C124_partial.
Print Assumptions C125_refuted.
Print Assumptions C125_ticket_refuted.
Print Assumptions C125_partial.
Print Assumptions C125_at_most_one.
Print Assumptions C126_refuted.
Print Assumptions C126_partial.
Print Assumptions C127_refuted.
Print Assumptions C127_partial.
Print Assumptions C128_refuted.
Print Assumptions C128_partial.
Print Assumptions C129_refuted.
Print Assumptions C129_partial.
Print Assumptions C130_refuted.
Print Assumptions C130_partial.
Print Assumptions C131_refuted.
Print Assumptions C131_partial.
Print Assumptions C132_only_under_session_key.
Print Assumptions C133_login_completes.
Print Assumptions C133_refused.
Print Assumptions C134_refuted.
Print Assumptions C134_partial.
Print Assumptions C135_refuted.
Print Assumptions C135_partial.
Print Assumptions C136_refuted.
Print Assumptions C136_partial.
Print Assumptions C137_stays_listed.
