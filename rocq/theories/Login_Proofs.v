From Coq Require Import ZifyBool ZifyNat ZifyN.
From stdpp Require Import prelude gmap.
From Verif Require Import Login_Model Login_Spec.
Local Open Scope N_scope.

(** * Histories *)

Lemma run_app cf n xs ys : run cf n (xs ++ ys) = run cf (run cf n xs) ys.
Proof. revert n. induction xs as [|x xs IH]; intros n; [done|]. apply IH. Qed.

Lemma node_snoc cf evs ev : the_node cf (evs ++ [ev]) = (step cf (the_node cf evs) ev).1.
Proof. unfold the_node. by rewrite run_app. Qed.

Lemma hist_ind cf (P : list event → node → Prop) :
  P [] init →
  (∀ evs ev, P evs (the_node cf evs) → P (evs ++ [ev]) (step cf (the_node cf evs) ev).1) →
  ∀ evs, P evs (the_node cf evs).
Proof.
  intros H0 Hs evs. induction evs as [|ev evs IH] using rev_ind; [exact H0|].
  rewrite node_snoc. by apply Hs.
Qed.

Lemma device_app cf evs xs sid c k a : device cf evs sid c k a → device cf (evs ++ xs) sid c k a.
Proof.
  intros (b & p & e & af & u & -> & H). exists b, p, e, (af ++ xs), u. split; [|exact H].
  by rewrite <-app_assoc.
Qed.

Lemma authenticated_app cf evs xs sid c : authenticated cf evs sid c → authenticated cf (evs ++ xs) sid c.
Proof.
  intros (b & p & e & af & k & a & -> & H). exists b, p, e, (af ++ xs), k, a. split; [|exact H].
  by rewrite <-app_assoc.
Qed.

Lemma received_app evs xs sid p : received evs sid p → received (evs ++ xs) sid p.
Proof. intros [e H]. exists e. apply elem_of_app. by left. Qed.

Lemma received_last evs sid p e : received (evs ++ [In sid (Recv p e)]) sid p.
Proof. exists e. apply elem_of_app. right. by apply elem_of_list_singleton. Qed.

Lemma uses_app evs xs sid t : uses_ticket evs sid t → uses_ticket (evs ++ xs) sid t.
Proof.
  intros [(i & H & Ht)|(p & H & Ht)]; [left; exists i|right; exists p]; (split; [|exact Ht]).
  - apply elem_of_app. by left.
  - by apply received_app.
Qed.

(** * The disconnect signal *)

Inductive signalled (t : option N) (h : shared) (s : sess) : shared → sess → list kevent → Prop :=
| sig_none : (s_cid s = None ∨ s_ticket s ∈ h_tracker h) → signalled t h s h (set_dc false s) []
| sig_off c : s_cid s = Some c → s_ticket s ∉ h_tracker h → s_dc s = false →
    signalled t h s (set_tracker ({[s_ticket s]} ∪ h_tracker h) h) s []
| sig_on c : s_cid s = Some c → s_ticket s ∉ h_tracker h → s_dc s = true →
    signalled t h s (set_tracker ({[s_ticket s]} ∪ h_tracker h) h) (set_dc false (set_state Disconnecting s)) [KDisconnect (default (s_ticket s) t) c].

Lemma dc_signalled t h s h' s' ks : dc_signal t h s = (h', s', ks) → signalled t h s h' s' ks.
Proof.
  unfold dc_signal. destruct (s_cid s) as [c|] eqn:Ec.
  - destruct (bool_decide (s_ticket s ∈ h_tracker h)) eqn:Et.
    + apply bool_decide_eq_true in Et. intros [= <- <- <-]. apply sig_none. by right.
    + apply bool_decide_eq_false in Et. destruct (s_dc s) eqn:Ed; intros [= <- <- <-].
      * by apply sig_on.
      * by eapply sig_off.
  - intros [= <- <- <-]. apply sig_none. by left.
Qed.

Lemma dc_dereg t h s h' s' ks : dc_signal t h s = (h', s', ks) → s_dereg s' = s_dereg s.
Proof. intros H. by destruct (dc_signalled _ _ _ _ _ _ H). Qed.

(** * What a packet does to a session *)

Section outcome.
  Context (cf : config) (sid : N) (h : shared) (s : sess) (p : packet) (e : oracle).

  Definition early (s : sess) : Prop := s_state s = NeedsRegister ∨ s_state s = SocketJustOpened ∨ s_state s = NeedsConnect.
  Definition is_con (b : body) : Prop := match b with ConStage0 _ | ConFailure _ | ConSuccess | ConSuccessAck => True | _ => False end.

  (** a packet under the current key *)
  Definition keyed (r : ratchet) : Prop := safe_ratchet s = Some r ∧ p_seal p = Some (r_key r).

  Inductive outcome : result → Prop :=
  | out_same out v : (v = Go ∨ v = End) → outcome (mk_result h s out [] v)
  | out_reg0_bad : early s → outcome (mk_result h (set_state NeedsRegister (set_reg (mk_reg GFailed None (g_made (s_reg s)) (g_transient (s_reg s))) s)) [] [] End)
  | out_reg0 q tr k out : early s → p_body p = RegStage0 q tr k → g_stage (s_reg s) = G0 →
      outcome (mk_result h (set_reg (mk_reg G1 (g_cons (s_reg s)) (Some (mk_ratchet (p_cid p) k)) (Some tr)) s) out [] Go)
  | out_reg1_bad r v : early s → g_cons (s_reg s) = Some r → (v = Go ∨ v = End) →
      outcome (mk_result h (set_reg (mk_reg (g_stage (s_reg s)) None (g_made (s_reg s)) (g_transient (s_reg s))) s) [] [] v)
  | out_reg1 r c out : early s → g_cons (s_reg s) = Some r → o_creds (s_con s) = Some c →
      outcome (mk_result h (set_reg (mk_reg G2 None (Some r) (g_transient (s_reg s))) s) out [] Go)
  | out_reg2 r c out : early s → p_body p = RegStage2 c → g_stage (s_reg s) = G1 → g_made (s_reg s) = Some r →
      p_seal p = Some (r_key r) → h_store h !! f_cid cf (c_user c) = None →
      outcome (mk_result (set_store (<[f_cid cf (c_user c) := mk_account (f_cid cf (c_user c)) c r]> (h_store h)) h) s out [] Go)
  | out_regs_bad r : early s → g_stage (s_reg s) = G2 → g_made (s_reg s) = Some r → p_seal p = Some (r_key r) →
      outcome (mk_result h s [] [KRegisterFailure (s_ticket s) why_account] End)
  | out_regs_transient r c out : early s → p_body p = RegSuccess → g_stage (s_reg s) = G2 → g_made (s_reg s) = Some r →
      p_seal p = Some (r_key r) → o_creds (s_con s) = Some c → g_transient (s_reg s) = Some true →
      let a := mk_account (f_cid cf (c_user c)) c r in
      outcome (mk_result (set_store (<[f_cid cf (c_user c) := a]> (h_store h)) h)
        (set_cnac (Some a) (set_pre (mk_pre PSynAck (Some (mk_ratchet (a_cid a) (next_key r))) (q_made (s_pre s)) (q_success (s_pre s)) (q_udp (s_pre s))) (set_state NeedsConnect s)))
        out [] Go)
  | out_regs r c : early s → p_body p = RegSuccess → g_stage (s_reg s) = G2 → g_made (s_reg s) = Some r →
      p_seal p = Some (r_key r) → o_creds (s_con s) = Some c → g_transient (s_reg s) = Some false →
      let a := mk_account (f_cid cf (c_user c)) c r in
      outcome (mk_result (set_store (<[f_cid cf (c_user c) := a]> (h_store h)) h) (set_state Disconnecting s)
        [] [KRegisterOkay (s_ticket s) (f_cid cf (c_user c))] Stop)
  | out_regf why : early s → p_body p = RegFailure why → g_stage (s_reg s) ≠ G0 →
      outcome (mk_result h (set_state Disconnecting s) [] [KRegisterFailure (s_ticket s) why] End)
  | out_syn a k u out : provisional s = true → p_body p = Syn k u → h_store h !! p_cid p = Some a →
      p_seal p = Some (r_key (a_static a)) →
      outcome (mk_result h (set_cid (Some (p_cid p)) (set_cnac (Some a) (set_ticket (p_ticket p)
                      (set_pre (mk_pre PSynAck (q_cons (s_pre s)) (Some (mk_ratchet (p_cid p) k)) (q_success (s_pre s)) u) s)))) out [] Go)
  | out_synack a r out : provisional s = true → s_cnac s = Some a → q_cons (s_pre s) = Some r → p_seal p = Some (r_key (a_static a)) →
      outcome (mk_result h (set_pre (mk_pre PSuccess None (Some r) (q_success (s_pre s)) (q_udp (s_pre s))) s) out [] Go)
  | out_synack_bad a r st out : provisional s = true → s_cnac s = Some a → q_cons (s_pre s) = Some r →
      outcome (mk_result h (set_pre (mk_pre st None (q_made (s_pre s)) (q_success (s_pre s)) (q_udp (s_pre s))) s) out [] End)
  | out_pre r st ok u out : provisional s = true → q_made (s_pre s) = Some r → p_seal p = Some (r_key r) →
      outcome (mk_result h (set_pre (mk_pre st (q_cons (s_pre s)) (Some r) ok u) s) out [] Go)
  | out_pre_bad r a ok u why : provisional s = true → q_made (s_pre s) = Some r → p_seal p = Some (r_key r) → s_cnac s = Some a →
      outcome (mk_result h (set_pre (mk_pre (q_stage (s_pre s)) (q_cons (s_pre s)) (Some r) ok u) s) [] [KConnectFail (s_ticket s) (a_cid a) why] End)
  | out_begin r c out : provisional s = true → q_made (s_pre s) = Some r → p_seal p = Some (r_key r) → o_creds (s_con s) = Some c →
      outcome (mk_result h (set_state ConnectionProcess (set_con (mk_con C1 None (o_signal (s_con s)))
        (set_pre (mk_pre PSuccess (q_cons (s_pre s)) (Some r) true (q_udp (s_pre s))) s))) out [] Go)
  | out_halt why : provisional s = true → p_body p = Halt why →
      outcome (mk_result h s [] [KConnectFail (s_ticket s) (p_cid p) why] End)
  | out_con0_bad r a : keyed r → (provisional s = true ∨ o_stage (s_con s) = CSuccess) → s_cnac s = Some a →
      p_body p = ConStage0 (Some (a_creds a)) → o_stage (s_con s) ≠ CSuccess →
      outcome (mk_result h (set_conn (Some r) (set_con (mk_con CSuccess (o_creds (s_con s)) (o_signal (s_con s))) s)) [] [] End)
  | out_con0_store r a : keyed r → (provisional s = true ∨ o_stage (s_con s) = CSuccess) → s_cnac s = Some a →
      p_body p = ConStage0 (Some (a_creds a)) → o_stage (s_con s) ≠ CSuccess →
      outcome (mk_result (set_online (<[r_cid r := sid]> (h_online h)) h) (set_conn (Some r) (set_con (mk_con CSuccess (o_creds (s_con s)) (o_signal (s_con s))) s)) [] [] End)
  | out_con0 r a out : keyed r → (provisional s = true ∨ o_stage (s_con s) = CSuccess) → s_cnac s = Some a →
      p_body p = ConStage0 (Some (a_creds a)) → o_stage (s_con s) ≠ CSuccess → s_ticket s = p_ticket p →
      outcome (mk_result (set_online (<[r_cid r := sid]> (h_online h)) h)
        (set_state Connected (set_cid (Some (r_cid r)) (set_con (mk_con CSuccess (o_creds (s_con s)) (Some (KConnectSuccess (s_ticket s) (r_cid r) (p_cid p))))
           (set_conn (Some r) (set_con (mk_con CSuccess (o_creds (s_con s)) (o_signal (s_con s))) s))))) out [] Go)
  | out_conf r a why : keyed r → (provisional s = true ∨ o_stage (s_con s) = CSuccess) → s_cnac s = Some a → p_body p = ConFailure why →
      outcome (mk_result h (set_dc false (set_state NeedsConnect (set_cid None (set_con (mk_con CFailed (o_creds (s_con s)) (o_signal (s_con s))) s))))
            [] [KConnectFail (s_ticket s) (r_cid r) why] End)
  | out_cons_bad r a : keyed r → (provisional s = true ∨ o_stage (s_con s) = CSuccess) → s_cnac s = Some a → p_body p = ConSuccess → o_stage (s_con s) = C1 →
      outcome (mk_result h (set_cid (Some (r_cid r)) (set_conn (Some r) (set_con (mk_con CSuccess (o_creds (s_con s)) (o_signal (s_con s))) s))) [] [] End)
  | out_cons r a out v : keyed r → (provisional s = true ∨ o_stage (s_con s) = CSuccess) → s_cnac s = Some a → p_body p = ConSuccess → o_stage (s_con s) = C1 →
      (v = Go ∨ v = End) →
      outcome (mk_result (set_online (<[r_cid r := sid]> (h_online h)) h)
        (set_state Connected (set_cid (Some (r_cid r)) (set_conn (Some r) (set_con (mk_con CSuccess (o_creds (s_con s)) (o_signal (s_con s))) s))))
        out [KConnectSuccess (s_ticket s) (r_cid r) (p_cid p)] v)
  | out_ack r a c k : keyed r → (provisional s = true ∨ o_stage (s_con s) = CSuccess) → s_cnac s = Some a → p_body p = ConSuccessAck →
      s_server s = true → s_conn s = Some c → o_signal (s_con s) = Some k →
      outcome (mk_result h (set_con (mk_con (o_stage (s_con s)) (o_creds (s_con s)) None) s) [] [k] Go)
  | out_dereg0 r ok h1 h2 s2 dc out : s_state s = Connected → s_conn s = Some r → p_seal p = Some (r_key r) → p_body p = DeregStage0 →
      delete_client (p_cid p) h e = (h1, ok) → dc_signal (s_dereg s) h1 (set_state NeedsRegister s) = (h2, s2, dc) →
      outcome (mk_result h2 s2 out (KDeRegistration (p_cid p) (s_dereg s) ok :: dc) Go)
  | out_deregs r ok h1 h2 s2 dc : s_state s = Connected → s_conn s = Some r → p_seal p = Some (r_key r) → p_body p = DeregSuccess →
      delete_client (p_cid p) h e = (h1, ok) → dc_signal (s_dereg s) h1 s = (h2, s2, dc) →
      outcome (mk_result h2 (set_state Disconnecting s2) [] (KDeRegistration (p_cid p) (s_dereg s) true :: dc) Stop)
  | out_deregf r c : s_state s = Connected → s_conn s = Some r → p_seal p = Some (r_key r) → p_body p = DeregFailure → s_cid s = Some c →
      outcome (mk_result h s [] [KDeRegistration c (s_dereg s) false] End).

  Lemma opens_true r : opens r p = true → p_seal p = Some (r_key r).
  Proof. intros H. by apply bool_decide_eq_true in H. Qed.

  Ltac leaf :=
    repeat match goal with
    | H : opens _ p = true |- _ => apply opens_true in H
    | H : negb _ = true |- _ => apply negb_true_iff in H
    | H : negb _ = false |- _ => apply negb_false_iff in H
    | H : bool_decide _ = true |- _ => apply bool_decide_eq_true in H
    | H : bool_decide _ = false |- _ => apply bool_decide_eq_false in H
    end.

  Lemma register_outcome : outcome (process_register cf h s p e).
  Proof.
    unfold process_register, begin_connect, go, reply. cbv zeta.
    destruct (s_state s) eqn:Est; try (apply out_same; by left).
    all: assert (He : early s) by (unfold early; rewrite Est; auto).
    all: destruct (p_body p) eqn:Ebody; try (apply out_same; by left).
    (* three copies of the five kinds *)
    all: lazymatch type of Ebody with
      | _ = RegStage0 _ _ _ => destruct q; [| |]
      | _ => idtac end.
    all: repeat case_match; leaf; subst; try (apply out_same; by (left + right)).
    all: try (by apply out_reg0_bad).
    all: try (by eapply out_reg0).
    all: try (by eapply out_reg1).
    all: try (eapply out_reg1_bad; [done|done|by (left + right)]).
    all: try (eapply out_reg2; try done).
    all: try (by eapply out_regs_bad).
    all: try (by eapply out_regs).
    all: try (by eapply out_regs_transient).
    all: try (eapply out_regf; [done|done|congruence]).
    all: repeat match goal with H : (_ || _) = false |- _ => apply orb_false_iff in H as [? ?] end; leaf;
      match goal with H : ¬ is_Some _ |- _ => by apply eq_None_not_Some in H end.
  Qed.

  Lemma preconnect_outcome : outcome (process_preconnect cf h s p e).
  Proof.
    unfold process_preconnect, halt, go, reply. cbv zeta.
    destruct (provisional s) eqn:Eprov; cbn [negb]; [|apply out_same; by left].
    destruct (p_body p) eqn:Ebody; try (apply out_same; by left).
    all: repeat case_match; leaf; subst; try (apply out_same; by (left + right)).
    all: try (by eapply out_syn).
    all: try (by eapply out_synack).
    all: try (by eapply out_synack_bad).
    all: try (by eapply out_begin).
    all: try (by eapply out_pre_bad).
    all: try (by eapply out_halt).
    all: try (by eapply out_pre).
  Qed.

  Lemma connect_outcome : outcome (process_connect sid h s p e).
  Proof.
    unfold process_connect, go, reply. cbv zeta.
    destruct (negb (provisional s) && _) eqn:Eprov; [apply out_same; by left|].
    assert (Hprov : provisional s = true ∨ o_stage (s_con s) = CSuccess).
    { apply andb_false_iff in Eprov as [H|H]; leaf; [by left|by right]. }
    clear Eprov.
    destruct (negb (q_success (s_pre s))); [apply out_same; by left|].
    destruct (safe_ratchet s) as [r|] eqn:Er; [|apply out_same; by left].
    destruct (s_cnac s) as [a|] eqn:Ea; [|apply out_same; by left].
    destruct (negb (opens r p)) eqn:Eo; [apply out_same; by left|]. leaf.
    assert (Hk : keyed r) by done.
    destruct (p_body p) eqn:Ebody; try (apply out_same; by left).
    - destruct (bool_decide (o_stage (s_con s) = CSuccess)) eqn:Es; [apply out_same; by left|].
      destruct (bool_decide (c = Some (a_creds a))) eqn:Ec; [|apply out_same; by left]. leaf. subst c.
      destruct (negb (bool_decide (s_ticket s = p_ticket p))) eqn:Et; [apply out_same; by right|].
      destruct (negb (e_upgrade e)); [by eapply out_con0_bad|].
      destruct (negb (e_store e)); [by eapply out_con0_store|].
      eapply out_con0; try done. leaf. done.
    - by eapply out_conf.
    - destruct (bool_decide (o_stage (s_con s) = C1)) eqn:Es; [|apply out_same; by left]. leaf.
      destruct (negb (e_upgrade e)); [by eapply out_cons_bad|].
      eapply out_cons; try done. destruct (e_store e); auto.
    - destruct (s_server s) eqn:Esv; [|apply out_same; by right].
      destruct (s_conn s) eqn:Ecn; [|apply out_same; by right].
      destruct (o_signal (s_con s)) eqn:Eg; [|apply out_same; by right].
      by eapply out_ack.
  Qed.

  Lemma deregister_outcome : outcome (process_deregister h s p e).
  Proof.
    unfold process_deregister, go. cbv zeta.
    destruct (negb (bool_decide (s_state s = Connected))) eqn:Est; [apply out_same; by left|]. leaf.
    destruct (safe_ratchet s) as [r|] eqn:Er; [|apply out_same; by left].
    destruct (negb (opens r p)) eqn:Eo; [apply out_same; by left|]. leaf.
    assert (Hc : s_conn s = Some r) by (unfold safe_ratchet in Er; by rewrite Est in Er).
    destruct (p_body p) eqn:Ebody; try (apply out_same; by left).
    - destruct (delete_client (p_cid p) h e) as [h1 ok] eqn:Ed.
      destruct (dc_signal (s_dereg s) h1 (set_state NeedsRegister s)) as [[h2 s2] dc] eqn:Es. rewrite (dc_dereg _ _ _ _ _ _ Es). by eapply out_dereg0.
    - destruct (delete_client (p_cid p) h e) as [h1 ok] eqn:Ed.
      destruct (dc_signal (s_dereg s) h1 s) as [[h2 s2] dc] eqn:Es. rewrite (dc_dereg _ _ _ _ _ _ Es). by eapply out_deregs.
    - destruct (s_cid s) eqn:Ec; [|apply out_same; by left]. by eapply out_deregf.
  Qed.

  Lemma process_outcome : outcome (process cf sid h s p e).
  Proof.
    unfold process. destruct (p_body p);
      auto using register_outcome, preconnect_outcome, connect_outcome, deregister_outcome.
  Qed.
End outcome.

(** * The end of a session *)

(** the session after its end: only the state, the signal and the end mark have changed *)
Definition finished (s : sess) : sess := set_over true (set_dc false (set_state Disconnecting s)).

Definition store_after (h : shared) (s : sess) : gmap N account :=
  match s_cnac s with
  | Some a => if transient a then delete (a_cid a) (h_store h) else h_store h
  | None => h_store h
  end.
Definition online_after (sid : N) (h : shared) (s : sess) : gmap N N :=
  match s_cid s with
  | Some c => if bool_decide (h_online h !! c = Some sid) then delete c (h_online h) else h_online h
  | None => h_online h
  end.
(** the disconnect event at the end of a session *)
Definition last_word (h : shared) (s : sess) (ks : list kevent) : Prop :=
  match s_cid s with
  | Some c => if bool_decide (s_ticket s ∉ h_tracker h) && s_dc s then ks = [KDisconnect (s_ticket s) c] else ks = []
  | None => ks = []
  end.

Lemma finish_spec sid err h s h' s' ks :
  finish sid err h s = (h', s', ks) →
  s' = finished s ∧ h_store h' = store_after h s ∧ h_online h' = online_after sid h s ∧
  h_tracker h' = (match s_cid s with Some _ => {[s_ticket s]} ∪ h_tracker h | None => h_tracker h end) ∧
  ∃ dc, last_word h s dc ∧ ks = dc ++ (if negb (s_server s) && err then [KError (s_request s)] else []).
Proof.
  unfold finish, finished, store_after, online_after, last_word, dc_signal.
  destruct s as [sv rq st cid tk dcb g pr co cn con de ov]. destruct h as [hs ho ht].
  unfold set_state, set_dc, set_over, set_online, set_store, set_tracker.
  cbn [s_server s_request s_state s_cid s_ticket s_dc s_reg s_pre s_con s_cnac s_conn s_dereg s_over h_store h_online h_tracker].
  assert (Hset : ∀ x : gset N, tk ∈ x → x = {[tk]} ∪ x) by set_solver.
  destruct cid as [c|].
  - destruct (bool_decide (tk ∈ ht)) eqn:Et.
    + apply bool_decide_eq_true in Et. rewrite (bool_decide_eq_false_2 (tk ∉ ht)) by tauto.
      destruct err; cbn; destruct (bool_decide (ho !! c = Some sid)); cbn; destruct cn as [a|]; cbn;
        try destruct (transient a); cbn; rewrite (bool_decide_eq_true_2 (tk ∈ ht)) by done;
        intros [= <- <- <-]; cbn; (repeat split; [by apply Hset|]; eexists; split; [reflexivity|]; by rewrite ?app_nil_l).
    + apply bool_decide_eq_false in Et. rewrite (bool_decide_eq_true_2 (tk ∉ ht)) by done.
      assert (Hin : tk ∈ ({[tk]} ∪ ht : gset N)) by set_solver.
      destruct err, dcb; cbn; destruct (bool_decide (ho !! c = Some sid)); cbn; destruct cn as [a|]; cbn;
        try destruct (transient a); cbn; rewrite ?(bool_decide_eq_true_2 (tk ∈ {[tk]} ∪ ht)) by done;
        rewrite ?(bool_decide_eq_false_2 (tk ∈ ht)) by done;
        intros [= <- <- <-]; cbn; (repeat split; []; eexists; split; [reflexivity|]; by rewrite ?app_nil_l).
  - destruct err; cbn; destruct cn as [a|]; cbn;
      try destruct (transient a); cbn; intros [= <- <- <-]; cbn; (repeat split; []; eexists; split; [reflexivity|]; by rewrite ?app_nil_l).
Qed.

(** What the end does, for a session [s] that has processed its last packet *)
Definition ends (sid : N) (err : bool) (h : shared) (s : sess) (h' : shared) (s' : sess) (ks : list kevent) : Prop :=
  s' = finished s ∧ h_store h' = store_after h s ∧ h_online h' = online_after sid h s ∧
  h_tracker h' = (match s_cid s with Some _ => {[s_ticket s]} ∪ h_tracker h | None => h_tracker h end) ∧
  ∃ dc, last_word h s dc ∧ ks = dc ++ (if negb (s_server s) && err then [KError (s_request s)] else []).

Inductive acted (cf : config) (sid : N) (h : shared) (s : sess) : input → shared → sess → list packet → list kevent → Prop :=
| acted_go p e x : outcome cf sid h s p e x → x_verdict x = Go →
    acted cf sid h s (Recv p e) (x_shared x) (x_sess x) (x_send x) (x_tell x)
| acted_end p e x err h' s' ks : outcome cf sid h s p e x → x_verdict x = (if err : bool then End else Stop) →
    ends sid err (x_shared x) (x_sess x) h' s' ks →
    acted cf sid h s (Recv p e) h' s' (x_send x) (x_tell x ++ ks)
| acted_stream err h' s' ks : ends sid err h s h' s' ks → acted cf sid h s (StreamEnds err) h' s' [] ks
| acted_none i : (∀ p e, i ≠ Recv p e) → (∀ err, i ≠ StreamEnds err) → acted cf sid h s i h s [] []
| acted_ask t out : acted cf sid h s (AskDeregister t) h (set_dereg (Some t) s) out []
| acted_rekey k r a : s_state s = Connected → s_conn s = Some r → s_cnac s = Some a →
    acted cf sid h s (Rekey k) h (set_conn (Some (mk_ratchet (r_cid (a_static a)) k)) s) [] [].

Lemma act_acted cf sid h s i h' s' out ks :
  s_over s = false → act cf sid h s i = (h', s', out, ks) → acted cf sid h s i h' s' out ks.
Proof.
  intros Ho. unfold act. rewrite Ho. destruct i as [p e|t|k|err].
  - pose proof (process_outcome cf sid h s p e) as Hx. set (x := process cf sid h s p e) in *. clearbody x.
    destruct (x_verdict x) eqn:Ev.
    + intros [= <- <- <- <-]. by apply acted_go.
    + destruct (finish sid false (x_shared x) (x_sess x)) as [[h1 s1] ks1] eqn:Ef.
      intros [= <- <- <- <-]. apply finish_spec in Ef. by eapply (acted_end _ _ _ _ _ _ _ false).
    + destruct (finish sid true (x_shared x) (set_state Disconnecting (x_sess x))) as [[h1 s1] ks1] eqn:Ef.
      intros [= <- <- <- <-]. apply finish_spec in Ef. by eapply (acted_end _ _ _ _ _ _ _ true).
  - destruct (s_conn s); intros [= <- <- <- <-]; [apply acted_ask|by apply acted_none].
  - destruct (s_state s) eqn:Est; try (intros [= <- <- <- <-]; by apply acted_none).
    destruct (s_conn s) as [r|] eqn:Ec; [|intros [= <- <- <- <-]; by apply acted_none].
    destruct (s_cnac s) as [a|] eqn:Ea; [|intros [= <- <- <- <-]; by apply acted_none].
    intros [= <- <- <- <-]. by eapply acted_rekey.
  - destruct (finish sid err h s) as [[h1 s1] ks1] eqn:Ef. intros [= <- <- <- <-].
    apply finish_spec in Ef. by apply acted_stream.
Qed.

(** One event of a node *)
Inductive stepped (cf : config) (n : node) : event → node → Prop :=
| stepped_none ev : stepped cf n ev n
| stepped_open sid i s out : n_sess n !! sid = None → open_session cf (n_shared n) i = Some (s, out) →
    stepped cf n (Open sid i) (mk_node (n_shared n) (<[sid := s]> (n_sess n)) (n_log n))
| stepped_in sid s i h' s' out ks : n_sess n !! sid = Some s → s_over s = false →
    acted cf sid (n_shared n) s i h' s' out ks →
    stepped cf n (In sid i) (mk_node h' (<[sid := s']> (n_sess n)) (n_log n ++ map (pair sid) ks)).

Lemma node_eta n sid s : n_sess n !! sid = Some s → mk_node (n_shared n) (<[sid := s]> (n_sess n)) (n_log n ++ []) = n.
Proof. intros H. rewrite insert_id by done. rewrite app_nil_r. by destruct n. Qed.

Lemma step_stepped cf n ev : stepped cf n ev (step cf n ev).1.
Proof.
  unfold step. destruct ev as [sid i|sid i].
  - destruct (n_sess n !! sid) eqn:E; [apply stepped_none|].
    destruct (open_session cf (n_shared n) i) as [[s out]|] eqn:Eo; [|apply stepped_none].
    by eapply stepped_open.
  - destruct (n_sess n !! sid) as [s|] eqn:E; [|apply stepped_none].
    destruct (act cf sid (n_shared n) s i) as [[[h' s'] out] ks] eqn:Ea. cbn [fst].
    destruct (s_over s) eqn:Eo.
    + unfold act in Ea. rewrite Eo in Ea. injection Ea as <- <- <- <-. cbn [map]. rewrite (node_eta n sid s E). apply stepped_none.
    + apply act_acted in Ea; [|done]. by eapply stepped_in.
Qed.

(** Induction over the events: an invariant of all the sessions with the shared part *)
Lemma node_inv cf (P : list event → node → Prop) :
  P [] init →
  (∀ evs ev n', P evs (the_node cf evs) → stepped cf (the_node cf evs) ev n' → P (evs ++ [ev]) n') →
  ∀ evs, P evs (the_node cf evs).
Proof. intros H0 Hs. apply hist_ind; [done|]. intros evs ev IH. apply (Hs _ _ _ IH), step_stepped. Qed.

Lemma told_snoc n h' m sid sid' ks : told (mk_node h' m (n_log n ++ map (pair sid) ks)) sid' = told n sid' ++ (if bool_decide (sid = sid') then ks else []).
Proof.
  unfold told. cbn [n_log]. rewrite filter_app, fmap_app. f_equal.
  induction ks as [|k ks IH]; [by case_bool_decide|].
  cbn [map]. rewrite filter_cons. destruct (decide ((sid, k).1 = sid')) as [He|He]; cbn in He.
  - rewrite fmap_cons, IH. by rewrite bool_decide_eq_true_2 by done.
  - rewrite IH. by rewrite bool_decide_eq_false_2 by done.
Qed.

(** * The accounts *)

Definition filed (m : gmap N account) : Prop := ∀ c a, m !! c = Some a → a_cid a = c.

Lemma filed_insert m c cr r : filed m → filed (<[c := mk_account c cr r]> m).
Proof. intros H c' a. destruct (decide (c' = c)) as [->|Hn]; [rewrite lookup_insert; by intros [= <-]|rewrite lookup_insert_ne by done; apply H]. Qed.
Lemma filed_delete m c : filed m → filed (delete c m).
Proof. intros H c' a. rewrite lookup_delete_Some. intros [_ Hl]. by apply H. Qed.

Lemma delete_client_cases c h e h' ok : delete_client c h e = (h', ok) →
  (ok = true ∧ is_Some (h_store h !! c) ∧ h' = set_store (delete c (h_store h)) h ∧ e_store e = true) ∨
  (ok = false ∧ h' = h ∧ (h_store h !! c = None ∨ e_store e = false)).
Proof.
  unfold delete_client. destruct (bool_decide _ && _) eqn:E; intros [= <- <-].
  - apply andb_true_iff in E as [E1 E2]. apply bool_decide_eq_true in E1. by left.
  - right. split; [done|]. split; [done|]. apply andb_false_iff in E as [E|E]; [left|by right].
    apply bool_decide_eq_false in E. by apply eq_None_not_Some.
Qed.

Lemma signalled_shared t h s h' s' ks : signalled t h s h' s' ks → h_store h' = h_store h ∧ h_online h' = h_online h.
Proof. by destruct 1. Qed.

Lemma outcome_filed cf sid h s p e x : outcome cf sid h s p e x → filed (h_store h) → filed (h_store (x_shared x)).
Proof.
  destruct 1; cbn; intros Hf; try done; try (by apply filed_insert).
  all: match goal with H : delete_client _ _ _ = _, H' : dc_signal _ _ _ = _ |- _ =>
      apply delete_client_cases in H; apply dc_signalled, signalled_shared in H' as [-> _];
      destruct H as [(_ & _ & -> & _)|(_ & -> & _)] end; cbn; auto using filed_delete.
Qed.

Lemma ends_filed sid err h s h' s' ks : ends sid err h s h' s' ks → filed (h_store h) → filed (h_store h').
Proof.
  intros (_ & -> & _) Hf. unfold store_after. destruct (s_cnac s) as [a|]; [|done].
  destruct (transient a); auto using filed_delete.
Qed.

Lemma acted_filed cf sid h s i h' s' out ks : acted cf sid h s i h' s' out ks → filed (h_store h) → filed (h_store h').
Proof. destruct 1; eauto using outcome_filed, ends_filed. Qed.

Lemma filed_all cf evs : filed (accounts (the_node cf evs)).
Proof.
  apply (node_inv cf (λ _ n, filed (accounts n))); [done|]. intros evs' ev n' IH Hs.
  destruct Hs; [done|done|]. unfold accounts in *. cbn. by eapply acted_filed.
Qed.

(** * Sessions that were accepted *)

Record srv (cf : config) (evs : list event) (sid : N) (s : sess) : Prop := {
  v_creds : o_creds (s_con s) = None;
  v_qcons : q_cons (s_pre s) = None;
  v_gcons : g_cons (s_reg s) = None;
  v_stage : o_stage (s_con s) ≠ C1;
  v_made : ∀ r, q_made (s_pre s) = Some r → ∃ a, s_cnac s = Some a ∧ a_cid a = r_cid r ∧ device cf evs sid (r_cid r) (r_key r) a;
  v_cnac : ∀ a, s_cnac s = Some a → ∃ k, device cf evs sid (a_cid a) k a;
  v_cid : ∀ c, s_cid s = Some c → ∃ k a, device cf evs sid c k a;
  v_conn : s_state s = Connected ∨ is_Some (s_conn s) → ∃ c, authenticated cf evs sid c;
  v_signal : ∀ k, o_signal (s_con s) = Some k → ∃ t c ch, k = KConnectSuccess t c ch ∧ authenticated cf evs sid c ∧ ∃ p, received evs sid p ∧ p_cid p = ch }.

Definition entitled (cf : config) (evs : list event) (sid : N) (k : kevent) : Prop :=
  ∀ t c ch, k = KConnectSuccess t c ch → authenticated cf evs sid c ∧ ∃ p, received evs sid p ∧ p_cid p = ch.

Lemma srv_mono cf evs xs sid s : srv cf evs sid s → srv cf (evs ++ xs) sid s.
Proof.
  intros [H1 H2 H3 H4 H5 H6 H7 H8 H9]. split; try done.
  - intros r Hr. destruct (H5 r Hr) as (a & ? & ? & ?). exists a. auto using device_app.
  - intros a Ha. destruct (H6 a Ha) as [k ?]. exists k. auto using device_app.
  - intros c Hc. destruct (H7 c Hc) as (k & a & ?). exists k, a. auto using device_app.
  - intros Hc. destruct (H8 Hc) as [c ?]. exists c. auto using authenticated_app.
  - intros k Hk. destruct (H9 k Hk) as (t & c & ch & ? & ? & p & ? & ?).
    exists t, c, ch. split; [done|]. split; [by apply authenticated_app|]. exists p. auto using received_app.
Qed.

Lemma entitled_mono cf evs xs sid k : entitled cf evs sid k → entitled cf (evs ++ xs) sid k.
Proof. intros H t c ch Hk. destruct (H t c ch Hk) as (? & p & ? & ?). split; [by apply authenticated_app|]. exists p. auto using received_app. Qed.

Lemma outcome_server cf sid h s p e x : outcome cf sid h s p e x → s_server (x_sess x) = s_server s.
Proof.
  destruct 1; cbn; try done.
  all: match goal with H : dc_signal _ _ _ = _ |- _ => by destruct (dc_signalled _ _ _ _ _ _ H) end.
Qed.

Lemma outcome_over cf sid h s p e x : outcome cf sid h s p e x → s_over (x_sess x) = s_over s.
Proof.
  destruct 1; cbn; try done.
  all: match goal with H : dc_signal _ _ _ = _ |- _ => by destruct (dc_signalled _ _ _ _ _ _ H) end.
Qed.

Lemma acted_server cf sid h s i h' s' out ks : acted cf sid h s i h' s' out ks → s_server s' = s_server s.
Proof.
  destruct 1; cbn; try done.
  - by eapply outcome_server.
  - match goal with H : ends _ _ _ _ _ _ _ |- _ => destruct H as (-> & _) end. by eapply outcome_server.
  - match goal with H : ends _ _ _ _ _ _ _ |- _ => by destruct H as (-> & _) end.
Qed.

Lemma keyed_made s p r : keyed s p r → (provisional s = true ∨ o_stage (s_con s) = CSuccess) → o_stage (s_con s) ≠ CSuccess →
  q_made (s_pre s) = Some r.
Proof.
  intros [Hr _] [Hp|]; [|done]. intros _. unfold safe_ratchet in Hr. unfold provisional in Hp. by destruct (s_state s).
Qed.

(** the disconnect signal keeps what the invariant speaks of, but for the state *)
Lemma srv_state cf evs sid s x d : srv cf evs sid s → x ≠ Connected → srv cf evs sid (set_dc d (set_state x s)).
Proof.
  intros [H1 H2 H3 H4 H5 H6 H7 H8 H9] Hx. split; try done. cbn. intros [?|?]; [done|]. apply H8. by right.
Qed.

Lemma srv_signalled cf evs sid t h s h' s' ks : signalled t h s h' s' ks → srv cf evs sid s → srv cf evs sid s'.
Proof.
  intros Hs Hv. destruct Hs; [|done|by apply srv_state].
  destruct Hv. by split.
Qed.

Lemma outcome_srv cf evs sid s p e x :
  let evs' := evs ++ [In sid (Recv p e)] in
  outcome cf sid (n_shared (the_node cf evs)) s p e x → s_server s = true → srv cf evs sid s →
  srv cf evs' sid (x_sess x) ∧ Forall (entitled cf evs' sid) (x_tell x).
Proof.
  intros evs' Ho Hsv Hv. pose proof (filed_all cf evs) as Hf.
  assert (Hv' : srv cf evs' sid s) by by apply srv_mono.
  assert (Hnone : ∀ k, is_success k = false → entitled cf evs' sid k) by (intros k Hk t c ch ->; done).
  assert (Hdc : ∀ t h s h' s' ks, signalled t h s h' s' ks → Forall (entitled cf evs' sid) ks)
    by (intros ?????? Hsg; destruct Hsg; [apply Forall_nil_2|apply Forall_nil_2|apply Forall_cons_2; [by apply Hnone|apply Forall_nil_2]]).
  assert (Hauth : ∀ r a, keyed s p r → (provisional s = true ∨ o_stage (s_con s) = CSuccess) → s_cnac s = Some a →
      p_body p = ConStage0 (Some (a_creds a)) → o_stage (s_con s) ≠ CSuccess → authenticated cf evs' sid (r_cid r)).
  { intros r a Hk Hp Ha Hb Hst. pose proof (keyed_made _ _ _ Hk Hp Hst) as Hm.
    destruct (v_made _ _ _ _ Hv r Hm) as (a' & Ha' & _ & Hd). rewrite Ha in Ha'. injection Ha' as <-.
    exists evs, p, e, [], (r_key r), a. destruct Hk as [_ Hk]. done. }
  assert (Hset : ∀ x, x ≠ Connected → srv cf evs' sid (set_state x s)).
  { intros y Hy. by apply (srv_state _ _ _ _ y (s_dc s)) in Hv'. }
  pose proof (v_creds _ _ _ _ Hv) as Hcr. pose proof (v_qcons _ _ _ _ Hv) as Hqc. pose proof (v_gcons _ _ _ _ Hv) as Hgc.
  pose proof (v_stage _ _ _ _ Hv) as Hstg.
  destruct Ho; cbn [x_sess x_tell]; try congruence; (split; [|first [apply Forall_nil_2|apply Forall_cons_2; [try (by apply Hnone)|try apply Forall_nil_2]]]); try done; try (by apply Hset).
  - destruct Hv' as [H1 H2 H3 H4 H5 H6 H7 H8 H9]. split; try done. cbn. intros [?|?]; [done|]. apply H8. by right.
  - destruct Hv' as [H1' H2' H3' H4' H5' H6' H7' H8' H9']. by split.
  - (* SYN *)
    match goal with H : h_store _ !! p_cid p = Some a |- _ => rename H into Hst end.
    pose proof (Hf _ _ Hst) as Hac.
    assert (Hd : device cf evs' sid (p_cid p) k a) by (exists evs, p, e, [], u; done).
    destruct Hv' as [H1' H2' H3' H4' H5' H6' H7' H8' H9']. split; try done; cbn.
    + intros r [= <-]. exists a. by rewrite Hac.
    + intros a' [= <-]. exists k. by rewrite Hac.
    + intros c [= <-]. by exists k, a.
  - destruct Hv' as [H1' H2' H3' H4' H5' H6' H7' H8' H9']. split; try done; cbn.
    intros r' [= <-]. by apply H5'.
  - destruct Hv' as [H1' H2' H3' H4' H5' H6' H7' H8' H9']. split; try done; cbn.
    intros r' [= <-]. by apply H5'.
  - destruct Hv' as [H1' H2' H3' H4' H5' H6' H7' H8' H9']. split; try done; cbn. eauto.
  - destruct Hv' as [H1' H2' H3' H4' H5' H6' H7' H8' H9']. split; try done; cbn. eauto.
  - assert (Ha : authenticated cf evs' sid (r_cid r)) by eauto.
    destruct Hv' as [H1' H2' H3' H4' H5' H6' H7' H8' H9']. split; try done; cbn.
    + intros c [= <-]. match goal with Hk : keyed s p r |- _ => rename Hk into Hkd end.
      destruct (H5' r) as (a' & _ & _ & ?); [by eapply keyed_made|eauto].
    + eauto.
    + intros k' [= <-]. eexists _, _, _. split; [done|]. split; [done|]. exists p. split; [apply received_last|done].
  - destruct Hv' as [H1' H2' H3' H4' H5' H6' H7' H8' H9']. split; try done; cbn.
    intros [?|?]; [done|]. apply H8'. by right.
  - destruct Hv' as [H1' H2' H3' H4' H5' H6' H7' H8' H9']. by split.
  - match goal with H : o_signal _ = Some _ |- _ => rename H into Hsg end.
    intros t c' ch ->. destruct (v_signal _ _ _ _ Hv' _ Hsg) as (? & ? & ? & [= <- <- <-] & ?). done.
  - match goal with H : dc_signal _ _ _ = _ |- _ => apply dc_signalled in H; rename H into Hdcs end.
    eapply srv_signalled; [exact Hdcs|]. by apply Hset.
  - match goal with H : dc_signal _ _ _ = _ |- _ => apply dc_signalled in H; rename H into Hdcs end.
    by eapply Hdc.
  - match goal with H : dc_signal _ _ _ = _ |- _ => apply dc_signalled in H; rename H into Hdcs end.
    eapply srv_signalled in Hdcs; [|exact Hv']. by apply (srv_state _ _ _ _ Disconnecting (s_dc s2)) in Hdcs.
  - match goal with H : dc_signal _ _ _ = _ |- _ => apply dc_signalled in H; rename H into Hdcs end.
    by eapply Hdc.
Qed.

Lemma srv_finished cf evs sid s : srv cf evs sid s → srv cf evs sid (finished s).
Proof. intros H. apply (srv_state _ _ _ _ Disconnecting false) in H; [|done]. by destruct H; split. Qed.

Lemma last_word_cases h s dc : last_word h s dc → dc = [] ∨ ∃ c, s_cid s = Some c ∧ dc = [KDisconnect (s_ticket s) c].
Proof. unfold last_word. destruct (s_cid s) as [c|]; [|by left]. destruct (_ && _); eauto. Qed.

Lemma ends_tell sid err h s h' s' ks : ends sid err h s h' s' ks → ∀ k, k ∈ ks →
  (∃ c, s_cid s = Some c ∧ k = KDisconnect (s_ticket s) c) ∨ k = KError (s_request s).
Proof.
  intros (_ & _ & _ & _ & dc & Hdc & ->) k Hk. apply elem_of_app in Hk as [Hk|Hk].
  - apply last_word_cases in Hdc as [->|(c & Hc & ->)]; [by apply elem_of_nil in Hk|].
    apply elem_of_list_singleton in Hk. left. eauto.
  - destruct (negb (s_server s) && err); [|by apply elem_of_nil in Hk]. apply elem_of_list_singleton in Hk. by right.
Qed.

Lemma acted_srv cf evs sid s i h' s' out ks :
  let evs' := evs ++ [In sid i] in
  acted cf sid (n_shared (the_node cf evs)) s i h' s' out ks → s_server s = true → srv cf evs sid s →
  srv cf evs' sid s' ∧ Forall (entitled cf evs' sid) ks.
Proof.
  intros evs' Ha Hsv Hv. assert (Hv' : srv cf evs' sid s) by by apply srv_mono.
  assert (Hend : ∀ err h1 s1 h2 s2 ks, ends sid err h1 s1 h2 s2 ks → Forall (entitled cf evs' sid) ks).
  { intros err h1 s1 h2 s2 ks' He. apply Forall_forall. intros k Hk.
    destruct (ends_tell _ _ _ _ _ _ _ He _ Hk) as [(c & _ & ->)| ->]; intros t c' ch [=]. }
  destruct Ha as [p e x Ho Hvd|p e x err h' s' ks Ho Hvd He|err h' s' ks He| | |k r a Hst Hc Ha].
  - by apply (outcome_srv cf evs sid s p e x).
  - destruct (outcome_srv cf evs sid s p e x Ho Hsv Hv) as [H1 H2]. split.
    + destruct He as (-> & _). by apply srv_finished.
    + apply Forall_app. eauto.
  - split; [|eauto]. destruct He as (-> & _). by apply srv_finished.
  - done.
  - split; [|constructor]. by destruct Hv'; split.
  - split; [|constructor]. destruct Hv' as [H1' H2' H3' H4' H5' H6' H7' H8' H9']. split; try done; cbn.
    intros _. apply H8'. by left.
Qed.

Definition srv_all (cf : config) (evs : list event) (n : node) : Prop :=
  ∀ sid s, n_sess n !! sid = Some s → s_server s = true → srv cf evs sid s ∧ Forall (entitled cf evs sid) (told n sid).

Lemma open_server cf h i s out : open_session cf h i = Some (s, out) → s_server s = true → ∃ t, i = Accept t ∧
  s = blank true t SocketJustOpened None (mk_reg G0 None None None) false None.
Proof.
  unfold open_session, begin_connect. destruct i as [t| | |]; intros H Hs; try (destruct (h_store h !! cid)); try done;
    injection H as <- <-; try done. by exists t.
Qed.

(** sessions that are not there have told nothing *)
Lemma told_absent cf evs : ∀ sid, n_sess (the_node cf evs) !! sid = None → told (the_node cf evs) sid = [].
Proof.
  apply (node_inv cf (λ _ n, ∀ sid, n_sess n !! sid = None → told n sid = [])); [done|].
  intros evs' ev n' IH Hs sid. destruct Hs as [ev|sid' i s out Hn Ho|sid' s i h' s' out ks Hn Ho Ha]; [apply IH| |].
  - cbn. intros H. apply lookup_insert_None in H as [H _]. by apply IH in H.
  - cbn [n_sess]. intros H. apply lookup_insert_None in H as [H Hne]. rewrite told_snoc, IH by done.
    by rewrite bool_decide_eq_false_2 by done.
Qed.

Lemma srv_holds cf evs : srv_all cf evs (the_node cf evs).
Proof.
  apply (node_inv cf (srv_all cf)); [done|]. intros evs' ev n' IH Hs.
  assert (IH' : srv_all cf (evs' ++ [ev]) (the_node cf evs')).
  { intros sid s Hn Hsv. destruct (IH sid s Hn Hsv) as [H1 H2]. split; [by apply srv_mono|].
    eapply Forall_impl; [exact H2|]. intros k. apply entitled_mono. }
  destruct Hs as [ev|sid' i s out Hn Ho|sid' s i h' s' out ks Hn Ho Ha]; [done| |].
  - intros sid s1. cbn [n_sess]. rewrite lookup_insert_Some. intros [[<- <-]|[Hne Hl]] Hsv.
    + destruct (open_server _ _ _ _ _ Ho Hsv) as (t & -> & ->). split.
      * split; try done; cbn. by intros [?|[? ?]].
      * change (Forall (entitled cf (evs' ++ [Open sid' (Accept t)]) sid') (told (the_node cf evs') sid')).
        rewrite told_absent by done. constructor.
    + by apply IH'.
  - intros sid s1. cbn [n_sess]. rewrite lookup_insert_Some. rewrite told_snoc. intros [[<- <-]|[Hne Hl]] Hsv.
    + rewrite (acted_server _ _ _ _ _ _ _ _ _ Ha) in Hsv.
      destruct (IH _ _ Hn Hsv) as [Hv Ht]. destruct (acted_srv _ _ _ _ _ _ _ _ _ Ha Hsv Hv) as [H1 H2].
      split; [done|]. apply Forall_app. split; [by apply (IH' _ _ Hn Hsv)|]. by rewrite bool_decide_eq_true_2 by done.
    + rewrite bool_decide_eq_false_2 by done. rewrite app_nil_r. by apply IH'.
Qed.

(** * What changes the accounts *)

Lemma store_after_cases h s c :
  store_after h s !! c = h_store h !! c ∨
  (store_after h s !! c = None ∧ ∃ a, s_cnac s = Some a ∧ transient a = true ∧ a_cid a = c).
Proof.
  unfold store_after. destruct (s_cnac s) as [a|]; [|by left]. destruct (transient a) eqn:Et; [|by left].
  destruct (decide (a_cid a = c)) as [<-|Hne]; [right|left; by rewrite lookup_delete_ne].
  rewrite lookup_delete. eauto.
Qed.

(** account [c] before and after a packet *)
Lemma outcome_store cf sid h s p e x c :
  outcome cf sid h s p e x →
  h_store (x_shared x) !! c = h_store h !! c ∨
  (deletes p ∧ p_cid p = c ∧ h_store (x_shared x) !! c = None ∧ is_Some (h_store h !! c) ∧
     s_state s = Connected ∧ ∃ r, s_conn s = Some r ∧ p_seal p = Some (r_key r)) ∨
  (∃ r cr, h_store (x_shared x) !! c = Some (mk_account c cr r) ∧ c = f_cid cf (c_user cr) ∧
     g_made (s_reg s) = Some r ∧ p_seal p = Some (r_key r) ∧
     ((h_store h !! c = None ∧ p_body p = RegStage2 cr ∧ g_stage (s_reg s) = G1) ∨
      (p_body p = RegSuccess ∧ g_stage (s_reg s) = G2 ∧ o_creds (s_con s) = Some cr))).
Proof.
  destruct 1; cbn [x_shared]; try (by left).
  - cbn. destruct (decide (c = f_cid cf (c_user c0))) as [->|Hne]; [right; right|left; by rewrite lookup_insert_ne].
    rewrite lookup_insert. exists r, c0. repeat split; try done. left. done.
  - cbn. destruct (decide (c = f_cid cf (c_user c0))) as [->|Hne]; [right; right|left; by rewrite lookup_insert_ne].
    rewrite lookup_insert. exists r, c0. repeat split; try done. right. done.
  - cbn. destruct (decide (c = f_cid cf (c_user c0))) as [->|Hne]; [right; right|left; by rewrite lookup_insert_ne].
    rewrite lookup_insert. exists r, c0. repeat split; try done. right. done.
  - match goal with Hd : delete_client _ _ _ = _, Hs : dc_signal _ _ _ = _ |- _ =>
      apply dc_signalled, signalled_shared in Hs as [-> _]; apply delete_client_cases in Hd; destruct Hd as [(-> & Hi & -> & _)|(-> & -> & _)] end; [|by left].
    cbn. destruct (decide (p_cid p = c)) as [<-|Hne]; [right; left|left; by rewrite lookup_delete_ne].
    rewrite lookup_delete. unfold deletes. eauto 10.
  - match goal with Hd : delete_client _ _ _ = _, Hs : dc_signal _ _ _ = _ |- _ =>
      apply dc_signalled, signalled_shared in Hs as [-> _]; apply delete_client_cases in Hd; destruct Hd as [(-> & Hi & -> & _)|(-> & -> & _)] end; [|by left].
    cbn. destruct (decide (p_cid p = c)) as [<-|Hne]; [right; left|left; by rewrite lookup_delete_ne].
    rewrite lookup_delete. unfold deletes. eauto 10.
Qed.

Lemma acted_store cf sid h s i h' s' out ks c :
  acted cf sid h s i h' s' out ks →
  h_store h' !! c = h_store h !! c ∨
  (h_store h' !! c = None ∧ is_Some (h_store h !! c) ∧
     ((∃ p e r, i = Recv p e ∧ deletes p ∧ p_cid p = c ∧ s_state s = Connected ∧ s_conn s = Some r ∧ p_seal p = Some (r_key r)) ∨
      (s_over s' = true ∧ ∃ a, s_cnac s' = Some a ∧ transient a = true ∧ a_cid a = c))) ∨
  (∃ p e r cr, i = Recv p e ∧ h_store h' !! c = Some (mk_account c cr r) ∧ c = f_cid cf (c_user cr) ∧
     g_made (s_reg s) = Some r ∧ p_seal p = Some (r_key r) ∧
     ((h_store h !! c = None ∧ p_body p = RegStage2 cr ∧ g_stage (s_reg s) = G1) ∨
      (p_body p = RegSuccess ∧ g_stage (s_reg s) = G2 ∧ o_creds (s_con s) = Some cr))).
Proof.
  destruct 1 as [p e x Ho Hvd|p e x err h' s' ks Ho Hvd He|err h' s' ks He| | |k r a Hst Hc Ha]; try (by left).
  - destruct (outcome_store _ _ _ _ _ _ _ c Ho) as [?|[H|(r & cr & H)]]; [by left| |].
    + destruct H as (? & ? & ? & ? & ? & r & ? & ?). right; left. split; [done|]. split; [done|]. left. by exists p, e, r.
    + right; right. exists p, e, r, cr. done.
  - destruct He as (-> & Hst & _). rewrite Hst.
    destruct (store_after_cases (x_shared x) (x_sess x) c) as [->|(-> & a & Ha & Ht & Hc)].
    + destruct (outcome_store _ _ _ _ _ _ _ c Ho) as [?|[H|(r & cr & H)]]; [by left| |].
      * destruct H as (? & ? & ? & ? & ? & r & ? & ?). right; left. split; [done|]. split; [done|]. left. by exists p, e, r.
      * right; right. exists p, e, r, cr. done.
    + destruct (h_store h !! c) eqn:Ec; [|by left]. right; left. split; [done|]. split; [done|]. right. cbn. eauto.
  - destruct He as (-> & Hst & _). rewrite Hst. destruct (store_after_cases h s c) as [->|(-> & a & Ha & Ht & Hc)]; [by left|].
    destruct (h_store h !! c) eqn:Ec; [|by left]. right; left. split; [done|]. split; [done|]. right. cbn. eauto.
Qed.

(** * What registration has come to in a session *)

Record regi (cf : config) (evs : list event) (sid : N) (s : sess) : Prop := {
  w_creds : ∀ c, o_creds (s_con s) = Some c → proposed evs sid c;
  w_cons : ∀ r c, (g_cons (s_reg s) = Some r ∨ (g_stage (s_reg s) = G2 ∧ g_made (s_reg s) = Some r)) →
     o_creds (s_con s) = Some c → r_cid r = f_cid cf (c_user c);
  w_made : g_stage (s_reg s) = G1 → ∃ p q tr k, received evs sid p ∧ p_body p = RegStage0 q tr k ∧ g_made (s_reg s) = Some (mk_ratchet (p_cid p) k) }.

Lemma proposed_app evs xs sid c : proposed evs sid c → proposed (evs ++ xs) sid c.
Proof.
  intros (t & k & H). exists t, k. setoid_rewrite elem_of_app. naive_solver.
Qed.

Lemma regi_mono cf evs xs sid s : regi cf evs sid s → regi cf (evs ++ xs) sid s.
Proof.
  intros [H1 H2 H3]. split; [intros c Hc; apply proposed_app; auto|done|].
  intros Hg. destruct (H3 Hg) as (p & q & tr & k & ? & ? & ?). exists p, q, tr, k. auto using received_app.
Qed.

Lemma regi_same cf evs sid s s' : o_creds (s_con s') = o_creds (s_con s) → s_reg s' = s_reg s → regi cf evs sid s → regi cf evs sid s'.
Proof. intros H1 H2 [H3 H4 H5]. split; rewrite ?H1, ?H2; done. Qed.

Lemma signalled_same t h s h' s' ks : signalled t h s h' s' ks →
  s_con s' = s_con s ∧ s_reg s' = s_reg s ∧ s_cnac s' = s_cnac s ∧ s_conn s' = s_conn s ∧ s_cid s' = s_cid s ∧
  s_ticket s' = s_ticket s ∧ s_pre s' = s_pre s ∧ s_server s' = s_server s ∧ s_request s' = s_request s ∧ s_over s' = s_over s ∧
  (s_state s' = s_state s ∨ s_state s' = Disconnecting).
Proof. destruct 1; cbn; tauto. Qed.

Lemma outcome_regi cf evs sid s p e x :
  let evs' := evs ++ [In sid (Recv p e)] in
  outcome cf sid (n_shared (the_node cf evs)) s p e x → regi cf evs sid s → regi cf evs' sid (x_sess x).
Proof.
  intros evs' Ho Hv. assert (Hv' : regi cf evs' sid s) by by apply regi_mono.
  assert (Hrc : received evs' sid p) by apply received_last.
  destruct Ho; cbn [x_sess]; try done; try (by apply (regi_same cf evs' sid s)).
  - destruct Hv' as [H1 H2 H3]. split; cbn; try done. intros r c [?|[? ?]]; done.
  - destruct Hv' as [H1' H2' H3']. split; cbn; try done.
    + intros r c [?|[? ?]]; [|done]. apply H2'. by left.
    + intros _. by exists p, q, tr, k.
  - destruct Hv' as [H1' H2' H3']. split; cbn; try done. intros r' c [?|[? ?]]; [done|]. apply H2'. by right.
  - destruct Hv' as [H1' H2' H3']. split; cbn; try done. intros r' c' [?|[? [= <-]]]; [done|]. apply H2'. by left.
  - destruct Hv' as [H1' H2' H3']. by split; cbn.
  - match goal with H : dc_signal _ _ _ = _ |- _ => apply dc_signalled, signalled_same in H as (E1 & E2 & _) end. eapply regi_same; [| |exact Hv']; cbn; rewrite ?E1, ?E2; done.
  - match goal with H : dc_signal _ _ _ = _ |- _ => apply dc_signalled, signalled_same in H as (E1 & E2 & _) end. eapply regi_same; [| |exact Hv']; cbn; rewrite ?E1, ?E2; done.
Qed.

Lemma acted_regi cf evs sid s i h' s' out ks :
  acted cf sid (n_shared (the_node cf evs)) s i h' s' out ks → regi cf evs sid s → regi cf (evs ++ [In sid i]) sid s'.
Proof.
  intros Ha Hv. assert (Hv' : regi cf (evs ++ [In sid i]) sid s) by by apply regi_mono.
  destruct Ha as [p e x Ho Hvd|p e x err h' s' ks Ho Hvd He|err h' s' ks He| | |k r a Hst Hc Ha]; try (by apply (regi_same cf (evs ++ [In sid i]) sid s)); try (by apply (regi_same _ _ _ s)).
  - by apply (outcome_regi cf evs sid s p e x).
  - apply (outcome_regi cf evs sid s p e x) in Ho; [|done]. destruct He as (-> & _). by apply (regi_same _ _ _ (x_sess x)).
  - destruct He as (-> & _). by apply (regi_same _ _ _ s).
Qed.

Lemma open_regi cf evs h sid i s out : open_session cf h i = Some (s, out) → regi cf (evs ++ [Open sid i]) sid s.
Proof.
  assert (Hin : Open sid i ∈ evs ++ [Open sid i]) by (apply elem_of_app; right; by apply elem_of_list_singleton).
  unfold open_session, begin_connect, blank. destruct i as [t|t k c|t k cid c u|t k us u]; intros H; try (destruct (h_store h !! cid)); try done;
    injection H as <- <-; (split; cbn; try done).
  - intros c' [= <-]. exists t, k. by left.
  - intros r c' [[= <-]|[? ?]] [= <-]; done.
  - intros c' [= <-]. exists t, k. eauto.
  - naive_solver.
  - intros c' [= <-]. exists t, k. cbn. eauto.
  - intros r c' [[= <-]|[? ?]] [= <-]; done.
Qed.

(** a per-session invariant that does not depend on the shared part *)
Lemma sess_inv cf (P : list event → N → sess → Prop) :
  (∀ evs xs sid s, P evs sid s → P (evs ++ xs) sid s) →
  (∀ evs h sid i s out, open_session cf h i = Some (s, out) → h = n_shared (the_node cf evs) → P (evs ++ [Open sid i]) sid s) →
  (∀ evs sid s i h' s' out ks, acted cf sid (n_shared (the_node cf evs)) s i h' s' out ks → n_sess (the_node cf evs) !! sid = Some s → s_over s = false →
     P evs sid s → P (evs ++ [In sid i]) sid s') →
  ∀ evs sid s, n_sess (the_node cf evs) !! sid = Some s → P evs sid s.
Proof.
  intros Hmono Hopen Hact. apply (node_inv cf (λ evs n, ∀ sid s, n_sess n !! sid = Some s → P evs sid s)); [done|].
  intros evs ev n' IH Hs. destruct Hs as [ev|sid' i s out Hn Ho|sid' s i h' s' out ks Hn Ho Ha]; [eauto| |].
  - intros sid s1. cbn [n_sess]. rewrite lookup_insert_Some. intros [[<- <-]|[Hne Hl]]; eauto.
  - intros sid s1. cbn [n_sess]. rewrite lookup_insert_Some. intros [[<- <-]|[Hne Hl]]; eauto.
Qed.

Lemma regi_holds cf evs sid s : n_sess (the_node cf evs) !! sid = Some s → regi cf evs sid s.
Proof.
  apply (sess_inv cf (regi cf)); eauto using regi_mono, open_regi, acted_regi.
Qed.

(** * The statements about accounts *)

Lemma step_store cf evs ev c :
  accounts (the_node cf (evs ++ [ev])) !! c = accounts (the_node cf evs) !! c ∨
  ∃ sid i s s' out ks, ev = In sid i ∧ n_sess (the_node cf evs) !! sid = Some s ∧
    n_sess (the_node cf (evs ++ [ev])) !! sid = Some s' ∧
    acted cf sid (n_shared (the_node cf evs)) s i (n_shared (the_node cf (evs ++ [ev]))) s' out ks.
Proof.
  rewrite node_snoc. destruct (step_stepped cf (the_node cf evs) ev) as [ev|sid' i s out Hn Ho|sid' s i h' s' out ks Hn Ho Ha]; [by left|by left|].
  right. exists sid', i, s, s', out, ks. cbn. rewrite lookup_insert. done.
Qed.

Lemma removal cf evs ev c : removes cf evs ev c →
  ∃ sid i, ev = In sid i ∧
    ((∃ p e, i = Recv p e ∧ deletes p ∧ p_cid p = c ∧ under_session_key (the_node cf evs) sid p) ∨
     (ended (the_node cf (evs ++ [ev])) sid ∧ ∃ a, session_account (the_node cf (evs ++ [ev])) sid a ∧ transient a = true ∧ a_cid a = c)).
Proof.
  intros [Hi Hn]. destruct (step_store cf evs ev c) as [He|(sid & i & s & s' & out & ks & -> & Hs & Hs' & Ha)].
  { rewrite <-He, Hn in Hi. by destruct Hi. }
  exists sid, i. split; [done|].
  destruct (acted_store _ _ _ _ _ _ _ _ _ c Ha) as [He|[(_ & _ & Hr)|(p & e & r & cr & _ & Hx & _)]].
  - unfold accounts in *. rewrite <-He, Hn in Hi. by destruct Hi.
  - destruct Hr as [(p & e & r & -> & Hd & Hc & Hst & Hr & Hsl)|(Hov & a & Ha' & Ht & Hc)].
    + left. exists p, e. repeat (split; [done|]). by exists s, r.
    + right. split; [by exists s'|]. exists a. split; [by exists s'|]. done.
  - unfold accounts in *. congruence.
Qed.

Lemma authenticated_of_key cf evs sid p : as_server (the_node cf evs) sid → under_session_key (the_node cf evs) sid p →
  ∃ c, authenticated cf evs sid c.
Proof.
  intros (s & Hs & Hsv) (s' & r & Hs' & Hst & Hr & _). rewrite Hs in Hs'. injection Hs' as <-.
  destruct (srv_holds cf evs sid s Hs Hsv) as [Hv _]. apply (v_conn _ _ _ _ Hv). by left.
Qed.

Lemma server_kept cf n ev n' sid s s' : stepped cf n ev n' → n_sess n !! sid = Some s → n_sess n' !! sid = Some s' →
  s_server s' = s_server s.
Proof.
  destruct 1 as [ev|sid' i s1 out Hn Ho|sid' s1 i h' s1' out ks Hn Ho Ha]; cbn [n_sess]; intros H1 H2.
  - congruence.
  - rewrite lookup_insert_Some in H2. destruct H2 as [[<- <-]|[Hne H2]]; congruence.
  - rewrite lookup_insert_Some in H2. destruct H2 as [[<- <-]|[Hne H2]]; [|congruence].
    rewrite (acted_server _ _ _ _ _ _ _ _ _ Ha). congruence.
Qed.

Lemma removal_server cf evs sid i c : removes cf evs (In sid i) c → as_server (the_node cf (evs ++ [In sid i])) sid →
  (∃ p e c', i = Recv p e ∧ deletes p ∧ p_cid p = c ∧ under_session_key (the_node cf evs) sid p ∧ authenticated cf evs sid c') ∨
  (ended (the_node cf (evs ++ [In sid i])) sid ∧ ∃ k a, device cf (evs ++ [In sid i]) sid c k a ∧ transient a = true).
Proof.
  intros Hr Hsv. destruct (removal _ _ _ _ Hr) as (sid' & i' & [= <- <-] & Hc).
  destruct Hc as [(p & e & -> & Hd & Hp & Hu)|(He & a & (s & Hs & Ha) & Ht & Hc)].
  - left. assert (Hsv' : as_server (the_node cf evs) sid).
    { destruct Hu as (s & r & Hs & _). destruct Hsv as (s' & Hs' & Hv). rewrite node_snoc in Hs'.
      exists s. split; [done|]. rewrite <-Hv. symmetry. by eapply server_kept; [|done|exact Hs']; apply step_stepped. }
    destruct (authenticated_of_key _ _ _ _ Hsv' Hu) as [c' Hc']. by exists p, e, c'.
  - right. split; [done|]. destruct Hsv as (s' & Hs' & Hv). rewrite Hs in Hs'. injection Hs' as <-.
    destruct (srv_holds cf _ sid s Hs Hv) as [Hi _]. destruct (v_cnac _ _ _ _ Hi a Ha) as [k Hk]. subst c. by exists k, a.
Qed.

(** creation, and replacement of what was there *)
Lemma creation cf evs ev c a : accounts (the_node cf evs) !! c ≠ Some a → accounts (the_node cf (evs ++ [ev])) !! c = Some a →
  c = f_cid cf (c_user (a_creds a)) ∧
  ∃ sid p e, ev = In sid (Recv p e) ∧ p_seal p = Some (r_key (a_static a)) ∧
   ((p_body p = RegStage2 (a_creds a) ∧ accounts (the_node cf evs) !! c = None ∧
       ∃ p' q tr, received evs sid p' ∧ p_body p' = RegStage0 q tr (r_key (a_static a)) ∧ p_cid p' = r_cid (a_static a)) ∨
    (p_body p = RegSuccess ∧ proposed evs sid (a_creds a) ∧ as_client (the_node cf evs) sid ∧ r_cid (a_static a) = c)).
Proof.
  intros Hb Hn. destruct (step_store cf evs ev c) as [He|(sid & i & s & s' & out & ks & -> & Hs & Hs' & Ha)].
  { congruence. }
  destruct (acted_store _ _ _ _ _ _ _ _ _ c Ha) as [He|[(Hx & _)|(p & e & r & cr & -> & Hx & Hcid & Hg & Hsl & Hcase)]]; [unfold accounts in *; congruence..|].
  assert (a = mk_account c cr r) as -> by (unfold accounts in *; congruence). cbn.
  split; [done|]. exists sid, p, e. split; [done|]. split; [done|].
  pose proof (regi_holds cf evs sid s Hs) as Hw.
  destruct Hcase as [(Hnone & Hbd & Hg1)|(Hbd & Hg2 & Hcr)].
  - left. split; [done|]. split; [done|]. destruct (w_made _ _ _ _ Hw Hg1) as (p' & q & tr & k & Hrc & Hb' & Hm).
    rewrite Hg in Hm. injection Hm as ->. exists p', q, tr. done.
  - right. split; [done|]. split; [by apply (w_creds _ _ _ _ Hw)|]. split.
    + exists s. split; [done|]. destruct (s_server s) eqn:Esv; [|done].
      destruct (srv_holds cf evs sid s Hs Esv) as [Hv _]. rewrite (v_creds _ _ _ _ Hv) in Hcr. done.
    + rewrite Hcid. apply (w_cons _ _ _ _ Hw); [|done]. by right.
Qed.

(** * What the kernel is told about a session *)

Lemma told_inv cf (P : list event → N → sess → list kevent → Prop) :
  (∀ evs xs sid s l, P evs sid s l → P (evs ++ xs) sid s l) →
  (∀ evs sid i s out, open_session cf (n_shared (the_node cf evs)) i = Some (s, out) → P (evs ++ [Open sid i]) sid s []) →
  (∀ evs sid s l i h' s' out ks, acted cf sid (n_shared (the_node cf evs)) s i h' s' out ks → n_sess (the_node cf evs) !! sid = Some s → s_over s = false →
     P evs sid s l → P (evs ++ [In sid i]) sid s' (l ++ ks)) →
  ∀ evs sid s, n_sess (the_node cf evs) !! sid = Some s → P evs sid s (told (the_node cf evs) sid).
Proof.
  intros Hmono Hopen Hact. apply (node_inv cf (λ evs n, ∀ sid s, n_sess n !! sid = Some s → P evs sid s (told n sid))); [done|].
  intros evs ev n' IH Hs. destruct Hs as [ev|sid' i s out Hn Ho|sid' s i h' s' out ks Hn Ho Ha]; [eauto| |].
  - intros sid s1. cbn [n_sess]. rewrite lookup_insert_Some. intros [[<- <-]|[Hne Hl]].
    + change (told (mk_node (n_shared (the_node cf evs)) (<[sid':=s]> (n_sess (the_node cf evs))) (n_log (the_node cf evs))) sid')
        with (told (the_node cf evs) sid'). rewrite told_absent by done. eauto.
    + apply Hmono. by apply (IH sid s1).
  - intros sid s1. cbn [n_sess]. rewrite lookup_insert_Some, told_snoc. intros [[<- <-]|[Hne Hl]].
    + rewrite bool_decide_eq_true_2 by done. eauto.
    + rewrite bool_decide_eq_false_2 by done. rewrite app_nil_r. eauto.
Qed.

Lemma count_app f l1 l2 : count f (l1 ++ l2) = (count f l1 + count f l2)%nat.
Proof. unfold count. by rewrite List.filter_app, app_length. Qed.

Lemma count_none f l : (∀ k, k ∈ l → f k = false) → count f l = 0%nat.
Proof.
  induction l as [|k l IH]; [done|]. intros H. unfold count in *. cbn. rewrite (H k) by apply elem_of_list_here.
  apply IH. intros k' Hk. apply H. by apply elem_of_list_further.
Qed.

(** at most one success *)
Record once (s : sess) (l : list kevent) : Prop := {
  y_one : (count is_success l ≤ 1)%nat;
  y_signal : s_server s = true → ∀ k, o_signal (s_con s) = Some k → count is_success l = 0%nat ∧ is_success k = true;
  y_early : s_server s = true → o_stage (s_con s) = C0 ∨ o_stage (s_con s) = C1 → count is_success l = 0%nat ∧ o_signal (s_con s) = None;
  y_creds : s_server s = false → o_creds (s_con s) ≠ None → count is_success l = 0%nat;
  y_c1 : s_server s = false → o_stage (s_con s) = C1 → count is_success l = 0%nat ∧ o_creds (s_con s) = None }.

Lemma once_same s l s' ks : s_server s' = s_server s → s_con s' = s_con s → count is_success ks = 0%nat →
  once s l → once s' (l ++ ks).
Proof.
  intros H1 H2 H3 [Y1 Y2 Y3 Y4 Y5]. split; rewrite count_app, H3, Nat.add_0_r, ?H1, ?H2; done.
Qed.

Lemma ends_success sid err h s h' s' ks : ends sid err h s h' s' ks → count is_success ks = 0%nat.
Proof.
  intros He. apply count_none. intros k Hk. by destruct (ends_tell _ _ _ _ _ _ _ He k Hk) as [(c & _ & ->)| ->].
Qed.

Lemma signalled_tell t h s h' s' ks k : signalled t h s h' s' ks → k ∈ ks → ∃ c, s_cid s = Some c ∧ k = KDisconnect (default (s_ticket s) t) c.
Proof.
  destruct 1 as [|c|c Hc]; intros Hk; try (by apply elem_of_nil in Hk).
  apply elem_of_list_singleton in Hk. by exists c.
Qed.

Lemma signalled_success t h s h' s' ks : signalled t h s h' s' ks → count is_success ks = 0%nat.
Proof. intros Hs. apply count_none. intros k Hk. by destruct (signalled_tell _ _ _ _ _ _ k Hs Hk) as (c & _ & ->). Qed.

Lemma outcome_once cf sid h s p e x l : outcome cf sid h s p e x →
  (s_server s = true → o_creds (s_con s) = None) →
  (o_stage (s_con s) = CFailed → False) → (s_server s = true → o_stage (s_con s) ≠ C1) →
  once s l → once (x_sess x) (l ++ x_tell x) ∧ (o_stage (s_con (x_sess x)) = CFailed → x_verdict x = End).
Proof.
  intros Ho Hcr Hnf Hn1 Hy.
  assert (Hstg : o_stage (s_con s) ≠ CSuccess → s_server s = true → count is_success l = 0%nat ∧ o_signal (s_con s) = None).
  { intros Hs Hsv. destruct Hy as [Y1 Y2 Y3 Y4 Y5]. apply Y3; [done|]. specialize (Hn1 Hsv). destruct (o_stage (s_con s)); auto; done. }
  destruct Ho; cbn [x_sess x_tell x_verdict]; try (split; [by apply (once_same s)|by intros ?%Hnf]).
  - split; [|done]. destruct Hy as [Y1 Y2 Y3 Y4 Y5]. rewrite app_nil_r. split; cbn; try done; try congruence.
    + intros Hsv. rewrite Hcr in * by done. congruence.
    + intros Hsv _. assert (count is_success l = 0%nat) by (apply Y4; congruence). done.
  - split; [|done]. destruct Hy as [Y1 Y2 Y3 Y4 Y5]. rewrite app_nil_r. split; cbn; try done. intros ? [?|?]; done.
  - split; [|done]. destruct Hy as [Y1 Y2 Y3 Y4 Y5]. rewrite app_nil_r. split; cbn; try done. intros ? [?|?]; done.
  - split; [|done]. rewrite app_nil_r. pose proof (Hstg ltac:(done)) as Hz. destruct Hy as [Y1 Y2 Y3 Y4 Y5]. split; cbn; try done.
    + intros Hsv k [= <-]. split; [|done]. by apply Hz.
    + intros ? [?|?]; done.
  - split; [|done]. destruct Hy as [Y1 Y2 Y3 Y4 Y5].
    split; cbn; rewrite count_app; cbn; rewrite ?Nat.add_0_r; try done. intros ? [?|?]; done.
  - split; [|done]. destruct Hy as [Y1 Y2 Y3 Y4 Y5]. rewrite app_nil_r. split; cbn; try done. intros ? [?|?]; done.
  - split; [|done]. match goal with H : o_stage (s_con s) = C1 |- _ => rename H into Hc1 end.
    destruct Hy as [Y1 Y2 Y3 Y4 Y5]. destruct (s_server s) eqn:Esv; [by destruct Hn1|].
    destruct (Y5 eq_refl Hc1) as [Hz Hnc]. split; cbn; rewrite ?count_app, ?Hz; cbn; rewrite ?Esv; try done; lia || congruence.
  - match goal with H : o_signal _ = Some k |- _ => rename H into Hsg end. match goal with H : s_server s = true |- _ => rename H into Hsv end.
    split; [|by intros ?%Hnf]. destruct Hy as [Y1 Y2 Y3 Y4 Y5]. destruct (Y2 Hsv k Hsg) as [Hz Hk].
    assert (Hone : count is_success [k] = 1%nat) by (unfold count; cbn; by rewrite Hk).
    split; cbn [s_con s_server set_con o_signal o_stage o_creds]; rewrite ?count_app, ?Hz, ?Hone; try done; try lia; try congruence.
    intros _ Hst. destruct (Y3 Hsv Hst) as [_ Hn]. congruence.
  - match goal with H : dc_signal _ _ _ = _ |- _ => apply dc_signalled in H; rename H into Hd end.
    pose proof (signalled_success _ _ _ _ _ _ Hd) as Hk. destruct (signalled_same _ _ _ _ _ _ Hd) as (E1 & _ & _ & _ & _ & _ & _ & E2 & _).
    split; [|rewrite E1; by intros ?%Hnf]. by apply (once_same s).
  - match goal with H : dc_signal _ _ _ = _ |- _ => apply dc_signalled in H; rename H into Hd end.
    pose proof (signalled_success _ _ _ _ _ _ Hd) as Hk. destruct (signalled_same _ _ _ _ _ _ Hd) as (E1 & _ & _ & _ & _ & _ & _ & E2 & _).
    split; [|cbn; rewrite E1; by intros ?%Hnf]. by apply (once_same s).
Qed.

Lemma once_holds cf evs sid s : n_sess (the_node cf evs) !! sid = Some s →
  once s (told (the_node cf evs) sid) ∧ (o_stage (s_con s) = CFailed → s_over s = true).
Proof.
  apply (told_inv cf (λ _ _ s l, once s l ∧ (o_stage (s_con s) = CFailed → s_over s = true))).
  - done.
  - intros evs' sid' i s' out Ho. unfold open_session, begin_connect, blank in Ho.
    destruct i as [t|t k c|t k cid c u|t k us u]; try (destruct (h_store _ !! cid)); try done; injection Ho as <- <-; (split; [split|]); cbn; try done; lia.
  - intros evs' sid' s0 l i h' s' out ks Ha Hs Hov [Hy Hf].
    assert (Hv : s_server s0 = true → srv cf evs' sid' s0) by (intros Hsv; by apply (srv_holds cf evs' sid' s0)).
    assert (Hcr : s_server s0 = true → o_creds (s_con s0) = None) by (intros Hsv; apply (v_creds _ _ _ _ (Hv Hsv))).
    assert (Hn1 : s_server s0 = true → o_stage (s_con s0) ≠ C1) by (intros Hsv; apply (v_stage _ _ _ _ (Hv Hsv))).
    assert (Hnf : o_stage (s_con s0) = CFailed → False) by (intros H%Hf; congruence).
    destruct Ha as [p e x Ho Hvd|p e x err h' s' ks Ho Hvd He|err h' s' ks He| | |k r a Hst Hc Ha].
    + destruct (outcome_once _ _ _ _ _ _ _ l Ho Hcr Hnf Hn1 Hy) as [H1 H2]. split; [done|]. intros Hx%H2. congruence.
    + destruct (outcome_once _ _ _ _ _ _ _ l Ho Hcr Hnf Hn1 Hy) as [H1 H2]. rewrite app_assoc.
      pose proof (ends_success _ _ _ _ _ _ _ He). destruct He as (-> & _). split; [|done]. by apply (once_same (x_sess x)).
    + pose proof (ends_success _ _ _ _ _ _ _ He). destruct He as (-> & _). split; [|done]. by apply (once_same s0).
    + rewrite app_nil_r. done.
    + split; [by apply (once_same s0)|done].
    + split; [by apply (once_same s0)|done].
Qed.

(** disconnects are about accounts whose device key has been shown *)
Definition disc_ok (cf : config) (evs : list event) (sid : N) (s : sess) (l : list kevent) : Prop :=
  s_server s = true → ∀ t c, KDisconnect t c ∈ l → ∃ k a, device cf evs sid c k a.

Lemma outcome_disc cf sid h s p e x t c : outcome cf sid h s p e x → KDisconnect t c ∈ x_tell x →
  (∀ k, o_signal (s_con s) = Some k → is_success k = true) → s_cid s = Some c.
Proof.
  destruct 1; cbn [x_tell]; intros Hin Hsg; try (by apply elem_of_nil in Hin);
    try (apply elem_of_list_singleton in Hin; try done).
  - subst k. match goal with H : o_signal _ = Some _ |- _ => by apply Hsg in H end.
  - match goal with H : dc_signal _ _ _ = _ |- _ => apply dc_signalled in H; rename H into Hd end.
    apply elem_of_cons in Hin as [|Hin]; [done|]. by destruct (signalled_tell _ _ _ _ _ _ _ Hd Hin) as (c' & Hc & [= _ <-]).
  - match goal with H : dc_signal _ _ _ = _ |- _ => apply dc_signalled in H; rename H into Hd end.
    apply elem_of_cons in Hin as [|Hin]; [done|]. by destruct (signalled_tell _ _ _ _ _ _ _ Hd Hin) as (c' & Hc & [= _ <-]).
Qed.

Lemma disc_holds cf evs sid s : n_sess (the_node cf evs) !! sid = Some s → disc_ok cf evs sid s (told (the_node cf evs) sid).
Proof.
  apply (told_inv cf (disc_ok cf)).
  - intros evs' xs sid' s' l H Hsv t c Hin. destruct (H Hsv t c Hin) as (k & a & Hd). exists k, a. by apply device_app.
  - intros evs' sid' i s' out _ _ t c Hin. by apply elem_of_nil in Hin.
  - intros evs' sid' s0 l i h' s' out ks Ha Hs Hov Hy Hsv t c Hin.
    rewrite (acted_server _ _ _ _ _ _ _ _ _ Ha) in Hsv.
    apply elem_of_app in Hin as [Hin|Hin].
    { destruct (Hy Hsv t c Hin) as (k & a & Hd). exists k, a. by apply device_app. }
    destruct (srv_holds cf evs' sid' s0 Hs Hsv) as [Hv _].
    assert (Hc : ∀ c, s_cid s0 = Some c → ∃ k a, device cf (evs' ++ [In sid' i]) sid' c k a).
    { intros c' Hc'. destruct (v_cid _ _ _ _ Hv c' Hc') as (k & a & Hd). exists k, a. by apply device_app. }
    assert (Hsg : ∀ k, o_signal (s_con s0) = Some k → is_success k = true).
    { intros k Hk. by destruct (v_signal _ _ _ _ Hv k Hk) as (? & ? & ? & -> & _). }
    destruct Ha as [p e x Ho Hvd|p e x err h' s' ks Ho Hvd He|err h' s' ks He| | |k r a Hst Hc' Ha]; try (by apply elem_of_nil in Hin).
    + apply Hc. by eapply outcome_disc.
    + apply elem_of_app in Hin as [Hin|Hin]; [apply Hc; by eapply outcome_disc|].
      destruct (ends_tell _ _ _ _ _ _ _ He _ Hin) as [(c' & Hc' & [= _ <-])|[=]].
      destruct (outcome_srv cf evs' sid' s0 p e x Ho Hsv Hv) as [Hv' _]. by apply (v_cid _ _ _ _ Hv').
    + destruct (ends_tell _ _ _ _ _ _ _ He _ Hin) as [(c' & Hc' & [= _ <-])|[=]]. by apply Hc.
Qed.

(** a client's user hears of the end unless the stream is just closed *)
Lemma outcome_stop cf sid h s p e x : outcome cf sid h s p e x → x_verdict x = Stop → x_tell x ≠ [].
Proof.
  destruct 1; cbn; try done; intros ->.
  all: match goal with H : _ ∨ _ |- _ => by destruct H end.
Qed.

Lemma answered_holds cf evs sid s : n_sess (the_node cf evs) !! sid = Some s →
  s_server s = false → s_over s = true → told (the_node cf evs) sid = [] → In sid (StreamEnds false) ∈ evs.
Proof.
  apply (told_inv cf (λ evs sid s l, s_server s = false → s_over s = true → l = [] → In sid (StreamEnds false) ∈ evs)).
  - intros evs' xs sid' s' l H H1 H2 H3. apply elem_of_app. left. auto.
  - intros evs' sid' i s' out Ho. unfold open_session, begin_connect, blank in Ho.
    destruct i as [t|t k c|t k cid c u|t k us u]; try (destruct (h_store _ !! cid)); try done; injection Ho as <- <-; done.
  - intros evs' sid' s0 l i h' s' out ks Ha Hs Hov IH Hsv Hov' Hnil.
    rewrite (acted_server _ _ _ _ _ _ _ _ _ Ha) in Hsv. apply app_eq_nil in Hnil as [-> Hnil].
    destruct Ha as [p e x Ho Hvd|p e x err h' s' ks Ho Hvd He|err h' s' ks He| | |k r a Hst Hc Ha].
    + exfalso. rewrite (outcome_over _ _ _ _ _ _ _ Ho) in Hov'. congruence.
    + exfalso. apply app_eq_nil in Hnil as [Ht Hk].
      destruct err; [|by eapply outcome_stop].
      destruct He as (_ & _ & _ & _ & dc & _ & Hks). rewrite (outcome_server _ _ _ _ _ _ _ Ho), Hsv in Hks.
      cbn in Hks. rewrite Hks in Hk. by apply app_eq_nil in Hk as [_ ?].
    + destruct err; [|apply elem_of_app; right; by apply elem_of_list_singleton].
      exfalso. destruct He as (_ & _ & _ & _ & dc & _ & Hks). rewrite Hsv in Hks. cbn in Hks.
      rewrite Hks in Hnil. by apply app_eq_nil in Hnil as [_ ?].
    + congruence.
    + cbn in Hov'. congruence.
    + cbn in Hov'. congruence.
Qed.

(** * Whose keys a connected session uses *)

Definition ident (cf : config) (evs : list event) (sid : N) (s : sess) : Prop :=
  s_server s = true → s_state s = Connected →
  ∃ a r, s_cnac s = Some a ∧ authenticated cf evs sid (a_cid a) ∧ s_conn s = Some r ∧ (r_cid r = a_cid a ∨ r_cid r = r_cid (a_static a)).

Lemma ident_holds cf evs sid s : n_sess (the_node cf evs) !! sid = Some s → ident cf evs sid s.
Proof.
  apply (sess_inv cf (ident cf)).
  - intros evs' xs sid' s' H Hsv Hst. destruct (H Hsv Hst) as (a & r & ? & ? & ?). exists a, r. auto using authenticated_app.
  - intros evs' h sid' i s' out Ho _ Hsv. destruct (open_server _ _ _ _ _ Ho Hsv) as (t & -> & ->). done.
  - intros evs' sid' s0 i h' s' out ks Ha Hs Hov IH Hsv Hst.
    rewrite (acted_server _ _ _ _ _ _ _ _ _ Ha) in Hsv.
    assert (Hmono : s_state s0 = Connected → ∃ a r, s_cnac s0 = Some a ∧ authenticated cf (evs' ++ [In sid' i]) sid' (a_cid a) ∧ s_conn s0 = Some r ∧ (r_cid r = a_cid a ∨ r_cid r = r_cid (a_static a))).
    { intros H. destruct (IH Hsv H) as (a & r & ? & ? & ?). exists a, r. auto using authenticated_app. }
    destruct (srv_holds cf evs' sid' s0 Hs Hsv) as [Hv _].
    destruct Ha as [p e x Ho Hvd|p e x err h' s' ks Ho Hvd He|err h' s' ks He| | |k r a Hst' Hc Ha].
    + assert (Hkeep : s_cnac (x_sess x) = s_cnac s0 → s_conn (x_sess x) = s_conn s0 → s_state (x_sess x) = s_state s0 →
          ∃ a r, s_cnac (x_sess x) = Some a ∧ authenticated cf (evs' ++ [In sid' (Recv p e)]) sid' (a_cid a) ∧ s_conn (x_sess x) = Some r ∧ (r_cid r = a_cid a ∨ r_cid r = r_cid (a_static a))).
      { intros -> -> E. apply Hmono. congruence. }
      pose proof (outcome_srv cf evs' sid' s0 p e x Ho Hsv Hv) as [Hv' _].
      destruct Ho; cbn [x_sess] in *; try (by apply Hkeep); try done.
      * cbn in Hst. unfold provisional in *. by rewrite Hst in *.
      * match goal with Hk : keyed s0 p r |- _ => rename Hk into Hkd end.
        exists a, r. cbn. match goal with H : s_cnac s0 = Some a |- _ => rename H into Ha end. split; [done|].
        assert (Hm : q_made (s_pre s0) = Some r) by by eapply keyed_made.
        destruct (v_made _ _ _ _ Hv r Hm) as (a' & Ha' & Hc & Hd). rewrite Ha in Ha'. injection Ha' as <-.
        split; [|by auto]. rewrite Hc. destruct Hkd as [_ Hkd]. by exists evs', p, e, [], (r_key r), a.
      * exfalso. by apply (v_stage _ _ _ _ Hv).
      * match goal with H : dc_signal _ _ _ = _ |- _ => apply dc_signalled, signalled_same in H as (_ & _ & _ & _ & _ & _ & _ & _ & _ & _ & Est) end.
        cbn in Est. destruct Est; congruence.
    + destruct He as (-> & _). done.
    + destruct He as (-> & _). done.
    + by apply Hmono.
    + by apply Hmono.
    + destruct (Hmono Hst') as (a' & r' & Ha' & Hau & _). rewrite Ha in Ha'. injection Ha' as <-.
      eexists a, _. split; [done|]. split; [done|]. split; [reflexivity|]. by right.
Qed.

Lemma honest_app cf evs xs : honest_registrations cf (evs ++ xs) → honest_registrations cf evs.
Proof. intros H sid p q tr k p' c H1 H2. by eapply H; apply received_app. Qed.

Local Instance ratchet_eq_dec : EqDecision ratchet.
Proof. solve_decision. Defined.
Local Instance account_eq_dec : EqDecision account.
Proof. solve_decision. Defined.

Lemma honest_store cf evs c a : honest_registrations cf evs → accounts (the_node cf evs) !! c = Some a → r_cid (a_static a) = c.
Proof.
  revert c a. induction evs as [|ev evs IH] using rev_ind; [done|]. intros c a Hh Ha.
  destruct (decide (accounts (the_node cf evs) !! c = Some a)) as [Hb|Hb]; [by apply IH; [eapply honest_app|]|].
  destruct (creation cf evs ev c a Hb Ha) as (Hc & sid & p & e & -> & _ & [(Hbd & _ & p' & q & tr & Hrc & Hb' & Hp')|(_ & _ & _ & Hr)]); [|done].
  rewrite <-Hp', Hc. eapply Hh; [by apply received_app|apply received_last|done|done].
Qed.

Lemma honest_key cf evs sid s r : honest_registrations cf evs → n_sess (the_node cf evs) !! sid = Some s → s_server s = true →
  s_state s = Connected → s_conn s = Some r → authenticated cf evs sid (r_cid r).
Proof.
  intros Hh Hs Hsv Hst Hr. destruct (ident_holds cf evs sid s Hs Hsv Hst) as (a & r' & Ha & Hau & Hr' & Hc).
  rewrite Hr in Hr'. injection Hr' as <-. destruct Hc as [->|Hc]; [done|].
  destruct (srv_holds cf evs sid s Hs Hsv) as [Hv _]. destruct (v_cnac _ _ _ _ Hv a Ha) as (k & b & p & e & af & u & -> & _ & _ & Hst' & _).
  rewrite Hc. by rewrite (honest_store cf b (a_cid a) a (honest_app _ _ _ Hh) Hst').
Qed.

(** * Packets that are not under the session key *)

Lemma connected_deaf cf n sid s p e :
  n_sess n !! sid = Some s → s_state s = Connected → ¬ under_session_key n sid p → step cf n (In sid (Recv p e)) = (n, []).
Proof.
  intros Hs Hst Hk. unfold step. rewrite Hs. unfold act.
  assert (Hgo : ∀ (out : list packet) (ks : list kevent), out = [] → ks = [] → (mk_node (n_shared n) (<[sid:=s]> (n_sess n)) (n_log n ++ map (pair sid) ks), out) = (n, [])).
  { intros out ks -> ->. cbn [map]. by rewrite node_eta. }
  destruct (s_over s); [by apply Hgo|].
  assert (Hp : process cf sid (n_shared n) s p e = go (n_shared n) s); [|rewrite Hp; by apply Hgo].
  assert (Hop : ∀ r, s_conn s = Some r → opens r p = false).
  { intros r Hr. apply bool_decide_eq_false. intros Hsl. apply Hk. by exists s, r. }
  assert (Hpv : provisional s = false) by (unfold provisional; by rewrite Hst).
  assert (Hsr : safe_ratchet s = s_conn s) by (unfold safe_ratchet; by rewrite Hst).
  unfold process.
  assert (process_register cf (n_shared n) s p e = go (n_shared n) s) by (unfold process_register; by rewrite Hst).
  assert (process_preconnect cf (n_shared n) s p e = go (n_shared n) s) by (unfold process_preconnect; by rewrite Hpv).
  assert (process_connect sid (n_shared n) s p e = go (n_shared n) s).
  { unfold process_connect. destruct (_ && _); [done|]. destruct (negb _); [done|]. rewrite Hsr.
    destruct (s_conn s) as [r|]; [|done]. destruct (s_cnac s); [|done]. by rewrite (Hop r). }
  assert (process_deregister (n_shared n) s p e = go (n_shared n) s).
  { unfold process_deregister. destruct (negb _); [done|]. rewrite Hsr.
    destruct (s_conn s) as [r|]; [|done]. by rewrite (Hop r). }
  destruct (p_body p); done.
Qed.

(** * Telling of a deregistration *)

Lemma told_step_app cf evs sid i s : n_sess (the_node cf evs) !! sid = Some s →
  told (the_node cf (evs ++ [In sid i])) sid = told (the_node cf evs) sid ++ (act cf sid (n_shared (the_node cf evs)) s i).2.
Proof.
  intros Hs. rewrite node_snoc. unfold step. rewrite Hs. destruct (act _ _ _ _ _) as [[[h' s'] out] ks]. cbn [fst snd].
  rewrite told_snoc. by rewrite bool_decide_eq_true_2 by done.
Qed.

Lemma news_act cf evs sid i s : n_sess (the_node cf evs) !! sid = Some s →
  news cf evs (In sid i) sid = (act cf sid (n_shared (the_node cf evs)) s i).2.
Proof. intros Hs. unfold news. rewrite (told_step_app cf evs sid i s Hs). by rewrite drop_app. Qed.

Lemma news_absent cf evs sid i : n_sess (the_node cf evs) !! sid = None → news cf evs (In sid i) sid = [].
Proof. intros Hs. unfold news. rewrite node_snoc. unfold step. rewrite Hs. cbn. by rewrite drop_all. Qed.

Lemma dereg_truth cf evs sid p e c t ok :
  KDeRegistration c t ok ∈ news cf evs (In sid (Recv p e)) sid → p_body p = DeregStage0 →
  c = p_cid p ∧ (ok = true → removes cf evs (In sid (Recv p e)) c) ∧
  (ok = false → accounts (the_node cf (evs ++ [In sid (Recv p e)])) !! c = accounts (the_node cf evs) !! c).
Proof.
  intros Hin Hb. destruct (n_sess (the_node cf evs) !! sid) as [s|] eqn:Hs; [|rewrite news_absent in Hin by done; by apply elem_of_nil in Hin].
  rewrite (news_act _ _ _ _ s Hs) in Hin. unfold removes, accounts. rewrite node_snoc. unfold step. rewrite Hs.
  destruct (act cf sid (n_shared (the_node cf evs)) s (Recv p e)) as [[[h' s'] out] ks] eqn:Ea. cbn [fst snd n_shared] in *.
  destruct (s_over s) eqn:Eo; [unfold act in Ea; rewrite Eo in Ea; injection Ea as <- <- <- <-; by apply elem_of_nil in Hin|].
  unfold act in Ea. rewrite Eo in Ea. unfold process in Ea. rewrite Hb in Ea.
  assert (Hgo : process_deregister (n_shared (the_node cf evs)) s p e = go (n_shared (the_node cf evs)) s → c = p_cid p ∧ False).
  { intros E. rewrite E in Ea. injection Ea as <- <- <- <-. by apply elem_of_nil in Hin. }
  unfold process_deregister in Ea, Hgo. rewrite Hb in Ea, Hgo.
  destruct (negb _); [by destruct Hgo|]. destruct (safe_ratchet s) as [r|]; [|by destruct Hgo].
  destruct (negb _); [by destruct Hgo|]. clear Hgo.
  destruct (delete_client (p_cid p) (n_shared (the_node cf evs)) e) as [h1 ok'] eqn:Ed.
  destruct (dc_signal (s_dereg s) h1 (set_state NeedsRegister s)) as [[h2 s2] dc] eqn:Es.
  injection Ea as <- <- <- <-. apply dc_signalled in Es. destruct (signalled_shared _ _ _ _ _ _ Es) as [Hst _].
  apply elem_of_cons in Hin as [[= -> -> ->]|Hin]; [|by destruct (signalled_tell _ _ _ _ _ _ _ Es Hin) as (? & _ & [=])].
  split; [done|]. rewrite Hst. apply delete_client_cases in Ed as [(-> & Hi & -> & _)|(-> & -> & _)].
  - split; [|done]. intros _. split; [done|]. cbn. apply lookup_delete.
  - done.
Qed.

(** * Transient accounts *)

Lemma transient_gone cf evs sid i a :
  ¬ ended (the_node cf evs) sid → ended (the_node cf (evs ++ [In sid i])) sid →
  session_account (the_node cf (evs ++ [In sid i])) sid a → transient a = true →
  accounts (the_node cf (evs ++ [In sid i])) !! a_cid a = None.
Proof.
  intros Hn (s' & Hs' & Ho') (s'' & Hs'' & Ha) Ht. rewrite Hs' in Hs''. injection Hs'' as <-.
  rewrite node_snoc in *. remember (In sid i) as ev eqn:Eev.
  destruct (step_stepped cf (the_node cf evs) ev) as [ev|sid' i' s out Hl Ho|sid' s i' h' s1 out ks Hl Ho Hac]; [|discriminate|].
  - exfalso. apply Hn. by exists s'.
  - injection Eev as -> ->. cbn in Hs'. rewrite lookup_insert in Hs'. injection Hs' as ->. unfold accounts. cbn.
    assert (Hgone : ∀ h s, s_cnac s = Some a → store_after h s !! a_cid a = None).
    { intros h0 s0 H0. unfold store_after. rewrite H0, Ht. apply lookup_delete. }
    destruct Hac as [p e x Hout Hvd|p e x err h' s' ks Hout Hvd He|err h' s' ks He| | |k r a' Hst Hc Ha'].
    + rewrite (outcome_over _ _ _ _ _ _ _ Hout) in Ho'. congruence.
    + destruct He as (-> & -> & _). by apply Hgone.
    + destruct He as (-> & -> & _). by apply Hgone.
    + congruence.
    + cbn in Ho'. congruence.
    + cbn in Ho'. congruence.
Qed.

(** * The disconnect tracker *)

Lemma outcome_tracker cf sid h s p e x : outcome cf sid h s p e x →
  (h_tracker (x_shared x) = h_tracker h ∨ (h_tracker (x_shared x) = {[s_ticket s]} ∪ h_tracker h ∧ s_dc (x_sess x) = false)) ∧
  (s_dc s = false → s_dc (x_sess x) = false) ∧
  (s_ticket (x_sess x) = s_ticket s ∨
   (s_ticket (x_sess x) = p_ticket p ∧ h_tracker (x_shared x) = h_tracker h ∧ x_verdict x = Go ∧ match p_body p with Syn _ _ => True | _ => False end)).
Proof.
  destruct 1; cbn [x_shared x_sess x_verdict]; try (cbn; by auto).
  - cbn. match goal with H : p_body p = Syn _ _ |- _ => rewrite H end. auto 10.
  - match goal with Hd : delete_client _ _ _ = _, Hs : dc_signal _ _ _ = _ |- _ =>
      apply dc_signalled in Hs; apply delete_client_cases in Hd end.
    assert (Ht : h_tracker h1 = h_tracker h) by (match goal with Hd : _ ∨ _ |- _ => by destruct Hd as [(_ & _ & -> & _)|(_ & -> & _)] end).
    match goal with Hs : signalled _ _ _ _ _ _ |- _ => destruct Hs end; cbn in *; rewrite ?Ht; auto.
  - match goal with Hd : delete_client _ _ _ = _, Hs : dc_signal _ _ _ = _ |- _ =>
      apply dc_signalled in Hs; apply delete_client_cases in Hd end.
    assert (Ht : h_tracker h1 = h_tracker h) by (match goal with Hd : _ ∨ _ |- _ => by destruct Hd as [(_ & _ & -> & _)|(_ & -> & _)] end).
    match goal with Hs : signalled _ _ _ _ _ _ |- _ => destruct Hs end; cbn in *; rewrite ?Ht; auto.
Qed.

Lemma acted_tracker cf sid h s i h' s' out ks : acted cf sid h s i h' s' out ks →
  (∀ t, t ∈ h_tracker h' → t ∈ h_tracker h ∨ (t = s_ticket s ∧ s_dc s' = false)) ∧
  (s_dc s = false → s_dc s' = false) ∧
  (s_ticket s' = s_ticket s ∨ ∃ p e, i = Recv p e ∧ s_ticket s' = p_ticket p ∧ match p_body p with Syn _ _ => True | _ => False end).
Proof.
  destruct 1 as [p e x Ho Hvd|p e x err h' s' ks Ho Hvd He|err h' s' ks He| | |k r a Hst Hc Ha]; try (cbn; by auto).
  - destruct (outcome_tracker _ _ _ _ _ _ _ Ho) as (Ht & Hd & Hk). split; [|split; [done|]].
    + intros t. destruct Ht as [->|[-> Hdc]]; [by left|]. intros [->%elem_of_singleton|?]%elem_of_union; [right|left]; done.
    + destruct Hk as [?|(? & _ & _ & ?)]; [by left|]. right. by exists p, e.
  - destruct (outcome_tracker _ _ _ _ _ _ _ Ho) as (Ht & Hd & Hk). destruct He as (-> & _ & _ & Htr & _).
    assert (Hk' : s_ticket (x_sess x) = s_ticket s) by (destruct Hk as [?|(_ & _ & Hg & _)]; [done|destruct err; congruence]).
    split; [|split; [done|by left]]. intros t Hin. rewrite Htr in Hin.
    assert (Hin' : t = s_ticket s ∨ t ∈ h_tracker (x_shared x)) by (destruct (s_cid (x_sess x)); set_solver).
    cbn. destruct Hin' as [->|Hin']; [by right|]. destruct Ht as [Ht|[Ht _]]; rewrite Ht in Hin'; [by left|].
    apply elem_of_union in Hin' as [->%elem_of_singleton|?]; [right|left]; done.
  - destruct He as (-> & _ & _ & Htr & _). split; [|split; [done|by left]]. intros t Hin. rewrite Htr in Hin. cbn.
    destruct (s_cid s); [|by left]. apply elem_of_union in Hin as [->%elem_of_singleton|?]; [right|left]; done.
Qed.

Definition tracked (evs : list event) (n : node) : Prop :=
  (∀ sid s, n_sess n !! sid = Some s → uses_ticket evs sid (s_ticket s)) ∧
  (∀ t, t ∈ h_tracker (n_shared n) → ∃ sid s, uses_ticket evs sid t ∧ n_sess n !! sid = Some s ∧ s_dc s = false).

Lemma tracked_holds cf evs : tracked evs (the_node cf evs).
Proof.
  apply (node_inv cf tracked); [by split|]. intros evs' ev n' [IH1 IH2] Hs.
  assert (IH1' : ∀ sid s, n_sess (the_node cf evs') !! sid = Some s → uses_ticket (evs' ++ [ev]) sid (s_ticket s)) by eauto using uses_app.
  destruct Hs as [ev|sid' i s out Hn Ho|sid' s i h' s' out ks Hn Ho Ha].
  - split; [done|]. intros t Ht. destruct (IH2 t Ht) as (sid & s & ? & ?). exists sid, s. auto using uses_app.
  - split; cbn [n_sess n_shared].
    + intros sid s1. rewrite lookup_insert_Some. intros [[<- <-]|[Hne Hl]]; [|eauto].
      assert (Hin : Open sid' i ∈ evs' ++ [Open sid' i]) by (apply elem_of_app; right; by apply elem_of_list_singleton).
      left. exists i. split; [done|]. unfold open_session, begin_connect, blank in Ho.
      destruct i as [t|t k c|t k cid c u|t k us u]; try (destruct (h_store _ !! cid)); try done; by injection Ho as <- <-.
    + intros t Ht. destruct (IH2 t Ht) as (sid & s1 & ? & Hl & ?). exists sid, s1.
      rewrite lookup_insert_ne by congruence. auto using uses_app.
  - destruct (acted_tracker _ _ _ _ _ _ _ _ _ Ha) as (Ht & Hd & Hk). split; cbn [n_sess n_shared].
    + intros sid s1. rewrite lookup_insert_Some. intros [[<- <-]|[Hne Hl]]; [|eauto].
      destruct Hk as [->|(p & e & -> & -> & Hb)]; [eauto|]. right. exists p. split; [apply received_last|done].
    + intros t Hin. destruct (Ht t Hin) as [Hin'|[-> Hdc]].
      * destruct (IH2 t Hin') as (sid & s1 & ? & Hl & Hdc). destruct (decide (sid = sid')) as [->|Hne].
        -- exists sid', s'. rewrite lookup_insert. split; [by apply uses_app|]. split; [done|]. apply Hd. congruence.
        -- exists sid, s1. rewrite lookup_insert_ne by done. auto using uses_app.
      * exists sid', s'. rewrite lookup_insert. split; [|done]. by apply IH1'.
Qed.

Lemma own_fresh cf evs sid s : own_tickets evs sid → n_sess (the_node cf evs) !! sid = Some s → s_dc s = true →
  s_ticket s ∉ h_tracker (n_shared (the_node cf evs)).
Proof.
  intros Hown Hs Hd Hin. destruct (tracked_holds cf evs) as [H1 H2].
  destruct (H2 _ Hin) as (sid' & s' & Hu & Hs' & Hd'). pose proof (Hown sid' _ (H1 _ _ Hs) Hu) as ->. congruence.
Qed.

(** * Disconnects *)

Record disc (s : sess) (l : list kevent) : Prop := {
  z_cid : ∀ r, q_made (s_pre s) = Some r → s_cid s = Some (r_cid r);
  z_off : s_over s = false → s_dc s = false → s_state s = Disconnecting;
  z_conn : s_state s = Connected → is_Some (s_cid s);
  z_late : o_stage (s_con s) = CSuccess → s_over s = false → provisional s = false;
  z_stage : o_stage (s_con s) = C0 ∨ o_stage (s_con s) = CSuccess;
  z_success : ∀ t c ch, o_signal (s_con s) = Some (KConnectSuccess t c ch) ∨ KConnectSuccess t c ch ∈ l →
     s_cid s = Some c ∧ o_stage (s_con s) = CSuccess;
  z_count : count is_disconnect l = (if s_dc s then 0 else match s_cid s with Some _ => 1 | None => 0 end)%nat;
  z_disc : ∀ t c, KDisconnect t c ∈ l → s_cid s = Some c ∧ s_dc s = false }.

(** between the last packet and the end the state does not matter *)
Record disc' (s : sess) (l : list kevent) : Prop := {
  z'_cid : ∀ r, q_made (s_pre s) = Some r → s_cid s = Some (r_cid r);
  z'_stage : o_stage (s_con s) = C0 ∨ o_stage (s_con s) = CSuccess;
  z'_success : ∀ t c ch, o_signal (s_con s) = Some (KConnectSuccess t c ch) ∨ KConnectSuccess t c ch ∈ l →
     s_cid s = Some c ∧ o_stage (s_con s) = CSuccess;
  z'_count : count is_disconnect l = (if s_dc s then 0 else match s_cid s with Some _ => 1 | None => 0 end)%nat;
  z'_disc : ∀ t c, KDisconnect t c ∈ l → s_cid s = Some c ∧ s_dc s = false }.

Lemma disc_weaken s l : disc s l → disc' s l.
Proof. by intros []. Qed.

Lemma disc_dc s l : disc s l → s_over s = false → s_state s ≠ Disconnecting → s_dc s = true.
Proof. intros Hz Hov Hn. destruct (s_dc s) eqn:E; [done|]. by pose proof (z_off _ _ Hz Hov E). Qed.
Lemma provisional_dc s l : disc s l → s_over s = false → provisional s = true → s_dc s = true.
Proof. intros Hz Hov Hn. eapply disc_dc; [done|done|]. intros E. unfold provisional in Hn. by rewrite E in Hn. Qed.

(** after the disconnect signal of a logged-in session *)
Lemma disc_signalled t h s s0 h' s' ks l c r0 ok :
  signalled t h s0 h' s' ks → s_dc s = true → s_ticket s ∉ h_tracker h → s_cid s = Some c →
  s_dc s0 = s_dc s → s_ticket s0 = s_ticket s → s_cid s0 = s_cid s → s_con s0 = s_con s → s_pre s0 = s_pre s → s_over s0 = s_over s →
  disc s l → disc s' (l ++ KDeRegistration r0 t ok :: ks) ∧ s_state s' = Disconnecting ∧ s_dc s' = false.
Proof.
  intros Hd Hdc Hf Hc E1 E2 E3 E4 E5 E6 [Z1 Z2 Z0 Z3 Z4 Z5 Z6 Z7].
  destruct Hd as [[Hx|Hx]|c'|c' Hc' Hf' Hd']; [congruence|congruence|congruence|].
  assert (c' = c) as -> by congruence.
  split; [|done]. split; cbn; rewrite ?E1, ?E2, ?E3, ?E4, ?E5, ?E6; try done.
  - intros t' c0 ch [?|[?|[[=]|[=]%elem_of_list_singleton]%elem_of_cons]%elem_of_app]; by eauto.
  - rewrite count_app, Z6, Hdc. by rewrite Hc.
  - intros t' c0 [Hx|[[=]|[= -> ->]%elem_of_list_singleton]%elem_of_cons]%elem_of_app; [|done].
    destruct (Z7 _ _ Hx). congruence.
Qed.

Lemma disc_silent s l s' ks :
  (∀ k, k ∈ ks → is_disconnect k = false ∧ is_success k = false) →
  s_pre s' = s_pre s → s_cid s' = s_cid s → s_dc s' = s_dc s → s_con s' = s_con s →
  disc' s l → disc' s' (l ++ ks).
Proof.
  intros Hk E1 E2 E3 E4 [Z1 Z2 Z3 Z4 Z5]. split; rewrite ?E1, ?E2, ?E3, ?E4; try done.
  - intros t c ch [?|[?|Hx]%elem_of_app]; [by eauto|by eauto|]. by destruct (Hk _ Hx).
  - rewrite count_app, (count_none _ ks); [lia|]. intros k Hx. by apply Hk.
  - intros t c [?|Hx]%elem_of_app; [by eauto|]. by destruct (Hk _ Hx).
Qed.

Lemma disc_ends sid err h s l h' s' ks :
  ends sid err h s h' s' ks → (s_dc s = true → s_ticket s ∉ h_tracker h) → disc' s l → disc s' (l ++ ks).
Proof.
  intros (-> & _ & _ & _ & dc & Hdc & ->) Hf [Z1 Z2 Z3 Z4 Z5].
  set (tl := if negb (s_server s) && err then [KError (s_request s)] else []).
  assert (Htl : ∀ k, k ∈ tl → is_disconnect k = false ∧ is_success k = false).
  { intros k. subst tl. destruct (_ && _); [intros ->%elem_of_list_singleton; done|by intros ?%elem_of_nil]. }
  assert (Hd : dc = if s_dc s then match s_cid s with Some c => [KDisconnect (s_ticket s) c] | None => [] end else []).
  { unfold last_word in Hdc. destruct (s_cid s) as [c|]; [|by destruct (s_dc s)].
    destruct (s_dc s); [|by rewrite andb_false_r in Hdc]. rewrite bool_decide_eq_true_2 in Hdc by auto. done. }
  assert (Hin : ∀ k, k ∈ dc → ∃ c, s_cid s = Some c ∧ k = KDisconnect (s_ticket s) c).
  { intros k. rewrite Hd. destruct (s_dc s); [|by intros ?%elem_of_nil]. destruct (s_cid s); [|by intros ?%elem_of_nil].
    intros ->%elem_of_list_singleton. eauto. }
  split; cbn; try done.
  - intros t c ch [?|Hx]; [by eauto|]. apply elem_of_app in Hx as [Hx|[Hx|Hx]%elem_of_app]; [by eauto| |].
    + by destruct (Hin _ Hx) as (? & _ & [=]).
    + by destruct (Htl _ Hx).
  - rewrite !count_app, Z4, (count_none _ tl) by (intros k Hx; by apply Htl). rewrite Hd.
    destruct (s_dc s), (s_cid s); done.
  - intros t c Hx. apply elem_of_app in Hx as [Hx|[Hx|Hx]%elem_of_app].
    + destruct (Z5 _ _ Hx). done.
    + destruct (Hin _ Hx) as (? & ? & [= _ ->]). done.
    + by destruct (Htl _ Hx).
Qed.

Lemma outcome_disc' cf sid h s p e x l :
  outcome cf sid h s p e x → s_over s = false →
  o_creds (s_con s) = None → q_cons (s_pre s) = None →
  (∀ why, p_body p ≠ ConFailure why) → (∀ k, o_signal (s_con s) = Some k → is_success k = true) →
  (s_dc s = true → s_ticket s ∉ h_tracker h) →
  disc s l → disc' (x_sess x) (l ++ x_tell x) ∧ (x_verdict x = Go → disc (x_sess x) (l ++ x_tell x)).
Proof.
  intros Ho Hov Hcr Hqc Hnf Hsg Hfr Hz.
  assert (Hw := disc_weaken _ _ Hz).
  assert (Hgo : ∀ s' ks, s_pre s' = s_pre s → s_cid s' = s_cid s → s_dc s' = s_dc s → s_con s' = s_con s → s_state s' = s_state s →
     (∀ k, k ∈ ks → is_disconnect k = false ∧ is_success k = false) → disc' s' (l ++ ks) ∧ (x_verdict x = Go → disc s' (l ++ ks))).
  { intros s' ks E1 E2 E3 E4 E5 Hk. assert (Hw' : disc' s' (l ++ ks)) by by eapply disc_silent.
    split; [done|]. intros _. destruct Hz as [Z1 Z2 Z0 Z3 Z4 Z5 Z6 Z7], Hw'. split; try done.
    - rewrite E3, E5. auto.
    - rewrite E5, E2. auto.
    - unfold provisional. rewrite E4, E5. auto. }
  assert (Hstop : ∀ s' ks, s_pre s' = s_pre s → s_cid s' = s_cid s → s_dc s' = s_dc s → s_con s' = s_con s →
     (∀ k, k ∈ ks → is_disconnect k = false ∧ is_success k = false) → disc' s' (l ++ ks)) by (intros; by eapply disc_silent).
  assert (Hsing : ∀ k0 : kevent, is_disconnect k0 = false ∧ is_success k0 = false → ∀ k, k ∈ [k0] → is_disconnect k = false ∧ is_success k = false)
    by (intros k0 H0 k ->%elem_of_list_singleton; done).
  assert (Hnil : ∀ k, k ∈ @nil kevent → is_disconnect k = false ∧ is_success k = false) by (intros k Hk; by apply elem_of_nil in Hk).
  destruct Ho; cbn [x_sess x_tell x_verdict] in *; try congruence;
    try (by apply Hgo); try (apply Hgo; try done; by apply Hsing); try (split; [|done]; by apply Hstop); try (split; [|done]; apply Hstop; try done; by apply Hsing).
  - (* SYN *)
    rewrite app_nil_r. match goal with H : provisional s = true |- _ => rename H into Hpv end.
    assert (Hst : o_stage (s_con s) = C0).
    { destruct (z_stage _ _ Hz) as [?|Hc]; [done|]. rewrite (z_late _ _ Hz Hc Hov) in Hpv. done. }
    assert (Hdc : s_dc s = true) by by eapply provisional_dc.
    assert (Hdz : disc (set_cid (Some (p_cid p)) (set_cnac (Some a) (set_ticket (p_ticket p)
                      (set_pre (mk_pre PSynAck (q_cons (s_pre s)) (Some (mk_ratchet (p_cid p) k)) (q_success (s_pre s)) u) s)))) l).
    { destruct Hz as [Z1 Z2 Z0 Z3 Z4 Z5 Z6 Z7]. split; cbn; try done.
      - intros r' [= <-]. done.
      - intros t c ch Hx. destruct (Z5 _ _ _ Hx). congruence.
      - by rewrite Z6, Hdc.
      - intros t c Hx. destruct (Z7 _ _ Hx). congruence. }
    split; [by apply disc_weaken|done].
  - (* pre-connect *)
    rewrite app_nil_r. assert (Hdz : disc (set_pre (mk_pre st (q_cons (s_pre s)) (Some r) ok u) s) l).
    { destruct Hz as [Z1 Z2 Z0 Z3 Z4 Z5 Z6 Z7]. split; cbn; try done. intros r' [= <-]. by apply Z1. }
    split; [by apply disc_weaken|done].
  - split; [|done]. destruct Hw as [Z1 Z2 Z3 Z4 Z5]. split; cbn; try done.
    + intros r' [= <-]. by apply Z1.
    + intros t c ch [?|[?|[=]%elem_of_list_singleton]%elem_of_app]; by eauto.
    + rewrite count_app, Z4. cbn. lia.
    + intros t c [?|[=]%elem_of_list_singleton]%elem_of_app. by eauto.
  - split; [|done]. rewrite app_nil_r. destruct Hw as [Z1 Z2 Z3 Z4 Z5]. split; cbn; try done; [by right|].
    intros t c ch Hx. destruct (Z3 t c ch Hx). done.
  - split; [|done]. rewrite app_nil_r. destruct Hw as [Z1 Z2 Z3 Z4 Z5]. split; cbn; try done; [by right|].
    intros t c ch Hx. destruct (Z3 t c ch Hx). done.
  - (* the login *)
    rewrite app_nil_r. match goal with Hk : keyed s p r |- _ => rename Hk into Hkd end.
    assert (Hm : q_made (s_pre s) = Some r) by by eapply keyed_made.
    assert (Hpv : provisional s = true) by (match goal with H : provisional s = true ∨ _ |- _ => by destruct H end).
    assert (Hdc : s_dc s = true) by by eapply provisional_dc.
    match goal with |- disc' ?s' _ ∧ _ => assert (Hdz : disc s' l) end.
    { destruct Hz as [Z1 Z2 Z0 Z3 Z4 Z5 Z6 Z7]. pose proof (Z1 _ Hm) as Hc. split; cbn; try done.
      - intros r' Hr. congruence.
      - intros _. congruence.
      - by right.
      - intros t c ch [[= <- <- <-]|Hx]; [done|]. destruct (Z5 t c ch (or_intror Hx)). congruence.
      - by rewrite Z6, Hdc.
      - intros t c Hx. destruct (Z7 t c Hx). congruence. }
    split; [by apply disc_weaken|done].
  - destruct (z_stage _ _ Hz); congruence.
  - destruct (z_stage _ _ Hz); congruence.
  - (* the acknowledgement *)
    match goal with H : o_signal _ = Some k |- _ => rename H into Hk end. pose proof (Hsg _ Hk) as Hks.
    match goal with |- disc' ?s' _ ∧ _ => assert (Hdz : disc s' (l ++ [k])) end.
    { destruct Hz as [Z1 Z2 Z0 Z3 Z4 Z5 Z6 Z7]. split; cbn; try done.
      - intros t c' ch [?|[Hx|Hx%elem_of_list_singleton]%elem_of_app]; [done|by eauto|]. subst k. by eauto.
      - rewrite count_app, Z6, (count_none _ [k]); [lia|]. intros k' ->%elem_of_list_singleton. by destruct k.
      - intros t c' [Hx|Hx%elem_of_list_singleton]%elem_of_app; [by eauto|]. by subst k. }
    split; [by apply disc_weaken|done].
  - (* a request to deregister *)
    match goal with H : dc_signal _ _ _ = _ |- _ => apply dc_signalled in H; rename H into Hd end.
    match goal with H : delete_client _ _ _ = _ |- _ => apply delete_client_cases in H; rename H into Hdel end.
    assert (Ht : h_tracker h1 = h_tracker h) by (by destruct Hdel as [(_ & _ & -> & _)|(_ & -> & _)]).
    match goal with H : s_state s = Connected |- _ => rename H into Hst end.
    assert (Hdc : s_dc s = true) by (eapply disc_dc; [done|done|congruence]).
    destruct (z_conn _ _ Hz Hst) as [c Hc].
    destruct (disc_signalled _ _ s _ _ _ _ l c (p_cid p) ok Hd) as [Hdz _]; try done; [rewrite Ht; auto|].
    split; [by apply disc_weaken|done].
  - match goal with H : dc_signal _ _ _ = _ |- _ => apply dc_signalled in H; rename H into Hd end.
    match goal with H : delete_client _ _ _ = _ |- _ => apply delete_client_cases in H; rename H into Hdel end.
    assert (Ht : h_tracker h1 = h_tracker h) by (by destruct Hdel as [(_ & _ & -> & _)|(_ & -> & _)]).
    match goal with H : s_state s = Connected |- _ => rename H into Hst end.
    assert (Hdc : s_dc s = true) by (eapply disc_dc; [done|done|congruence]).
    destruct (z_conn _ _ Hz Hst) as [c Hc].
    destruct (disc_signalled _ _ s _ _ _ _ l c (p_cid p) true Hd) as [Hdz _]; try done; [rewrite Ht; auto|].
    split; [|done]. apply disc_weaken in Hdz. by destruct Hdz; split.
Qed.

Lemma no_failure_app evs xs sid : no_failure (evs ++ xs) sid → no_failure evs sid.
Proof. intros H p Hp. by apply H, received_app. Qed.
Lemma own_tickets_app evs xs sid : own_tickets (evs ++ xs) sid → own_tickets evs sid.
Proof. intros H sid' t H1 H2. by eapply H; apply uses_app. Qed.

Lemma disc_all cf evs sid s : n_sess (the_node cf evs) !! sid = Some s →
  s_server s = true → no_failure evs sid → own_tickets evs sid → disc s (told (the_node cf evs) sid).
Proof.
  apply (told_inv cf (λ evs sid s l, s_server s = true → no_failure evs sid → own_tickets evs sid → disc s l)).
  - intros evs' xs sid' s' l H Hsv Hn Ho. apply H; [done|by eapply no_failure_app|by eapply own_tickets_app].
  - intros evs' sid' i s' out Ho Hsv _ _. destruct (open_server _ _ _ _ _ Ho Hsv) as (t & -> & ->).
    split; cbn; try done; [by left| |].
    + intros ? ? ? [?|?%elem_of_nil]; done.
    + by intros ? ? ?%elem_of_nil.
  - intros evs' sid' s0 l i h' s' out ks Ha Hs Hov IH Hsv Hnf Hown.
    rewrite (acted_server _ _ _ _ _ _ _ _ _ Ha) in Hsv.
    assert (Hz : disc s0 l) by (apply IH; [done|by eapply no_failure_app|by eapply own_tickets_app]).
    assert (Hfr : s_dc s0 = true → s_ticket s0 ∉ h_tracker (n_shared (the_node cf evs')))
      by (intros Hd; apply (own_fresh cf evs' sid' s0); [by eapply own_tickets_app|done|done]).
    destruct (srv_holds cf evs' sid' s0 Hs Hsv) as [Hv _].
    assert (Hsg : ∀ k, o_signal (s_con s0) = Some k → is_success k = true).
    { intros k Hk. by destruct (v_signal _ _ _ _ Hv k Hk) as (? & ? & ? & -> & _). }
    assert (Hb : ∀ p e, i = Recv p e → ∀ why, p_body p ≠ ConFailure why).
    { intros p e -> why Hb. pose proof (Hnf p (received_last _ _ _ _)) as Hx. by rewrite Hb in Hx. }
    pose proof (v_creds _ _ _ _ Hv) as Hcr. pose proof (v_qcons _ _ _ _ Hv) as Hqc.
    destruct Ha as [p e x Ho Hvd|p e x err h' s' ks Ho Hvd He|err h' s' ks He| | |k r a Hst Hc Ha].
    + by eapply (outcome_disc' cf sid' _ s0 p e x l Ho Hov Hcr Hqc (Hb p e eq_refl) Hsg Hfr Hz).
    + destruct (outcome_disc' cf sid' _ s0 p e x l Ho Hov Hcr Hqc (Hb p e eq_refl) Hsg Hfr Hz) as [Hz' _].
      rewrite app_assoc. eapply disc_ends; [exact He| |exact Hz'].
      destruct (outcome_tracker _ _ _ _ _ _ _ Ho) as (Ht & Hd & Hk). intros Hdc.
      destruct Hk as [->|(_ & _ & Hg & _)]; [|destruct err; congruence].
      destruct Ht as [->|[_ Ht]]; [|congruence]. apply Hfr. destruct (s_dc s0); [done|]. by rewrite Hd in Hdc.
    + eapply disc_ends; [exact He|done|by apply disc_weaken].
    + by rewrite app_nil_r.
    + rewrite app_nil_r. by destruct Hz; split.
    + rewrite app_nil_r. by destruct Hz; split.
Qed.

Lemma disconnect_once cf evs sid t c ch :
  as_server (the_node cf evs) sid → ended (the_node cf evs) sid → KConnectSuccess t c ch ∈ told (the_node cf evs) sid →
  no_failure evs sid → own_tickets evs sid →
  count is_disconnect (told (the_node cf evs) sid) = 1%nat ∧ ∀ t' c', KDisconnect t' c' ∈ told (the_node cf evs) sid → c' = c.
Proof.
  intros (s & Hs & Hsv) (s' & Hs' & Hov) Hin Hnf Hown. rewrite Hs in Hs'. injection Hs' as <-.
  pose proof (disc_all cf evs sid s Hs Hsv Hnf Hown) as Hz.
  destruct (z_success _ _ Hz t c ch (or_intror Hin)) as [Hc _].
  assert (Hdc : s_dc s = false).
  { assert (Hd : ∀ cf evs sid s, n_sess (the_node cf evs) !! sid = Some s → s_over s = true → s_dc s = false); [|by eapply Hd].
    intros cf' evs'. apply (sess_inv cf' (λ _ _ s, s_over s = true → s_dc s = false)).
    - done.
    - intros e0 h0 sid0 i s0 out Ho _. unfold open_session, begin_connect, blank in Ho.
      destruct i as [t0|t0 k c0|t0 k cid c0 u|t0 k us u]; try (destruct (h_store _ !! cid)); try done; injection Ho as <- <-; done.
    - intros e0 sid0 s0 i h' s1 out ks Ha _ Hov' _.
      destruct Ha as [p e x Ho Hvd|p e x err h' s1 ks Ho Hvd He|err h' s1 ks He| | |k r a Hst Hc' Ha]; try (cbn; congruence).
      + rewrite (outcome_over _ _ _ _ _ _ _ Ho). congruence.
      + by destruct He as (-> & _).
      + by destruct He as (-> & _). }
  split.
  - by rewrite (z_count _ _ Hz), Hdc, Hc.
  - intros t' c' Hd. destruct (z_disc _ _ Hz _ _ Hd). congruence.
Qed.

(** at most one disconnect in every session *)
Definition atmost (s : sess) (l : list kevent) : Prop :=
  (s_dc s = true → count is_disconnect l = 0%nat) ∧ (count is_disconnect l ≤ 1)%nat.

Lemma atmost_silent s l s' ks : atmost s l → s_dc s' = s_dc s → (∀ k, k ∈ ks → is_disconnect k = false) → atmost s' (l ++ ks).
Proof. intros [H1 H2] E Hk. unfold atmost. rewrite count_app, (count_none _ ks Hk), Nat.add_0_r, E. done. Qed.

Lemma atmost_signal t h s l h' s' ks k0 s0 : signalled t h s0 h' s' ks → s_dc s0 = s_dc s → is_disconnect k0 = false → atmost s l → atmost s' (l ++ k0 :: ks).
Proof.
  intros Hs E Hk [H1 H2]. unfold atmost. rewrite count_app.
  assert (Hc : count is_disconnect (k0 :: ks) = count is_disconnect ks) by (unfold count; cbn; by rewrite Hk).
  rewrite Hc. destruct Hs; cbn; [split; [done|lia]|rewrite E, Nat.add_0_r; done|].
  split; [done|]. rewrite H1 by congruence. lia.
Qed.

Lemma atmost_holds cf evs sid s : n_sess (the_node cf evs) !! sid = Some s → atmost s (told (the_node cf evs) sid).
Proof.
  apply (told_inv cf (λ _ _ s l, atmost s l)).
  - done.
  - intros evs' sid' i s' out Ho. split; cbn; lia || done.
  - intros evs' sid' s0 l i h' s' out ks Ha Hs Hov IH.
    assert (Hsg : ∀ k, s_server s0 = true → o_signal (s_con s0) = Some k → is_disconnect k = false).
    { intros k Hsv Hk. destruct (srv_holds cf evs' sid' s0 Hs Hsv) as [Hv _].
      by destruct (v_signal _ _ _ _ Hv k Hk) as (? & ? & ? & -> & _). }
    assert (Hout : ∀ p e x, outcome cf sid' (n_shared (the_node cf evs')) s0 p e x → atmost (x_sess x) (l ++ x_tell x)).
    { intros p e x Ho.
      assert (Hnil : ∀ k, k ∈ @nil kevent → is_disconnect k = false) by (intros k Hk; by apply elem_of_nil in Hk).
      assert (Hsing : ∀ k0, is_disconnect k0 = false → ∀ k, k ∈ [k0] → is_disconnect k = false) by (intros k0 H0 k ->%elem_of_list_singleton; done).
      destruct Ho; cbn [x_sess x_tell]; try (apply (atmost_silent s0); try done; by apply Hsing).
      - destruct IH as [H1' H2']. split; [done|]. rewrite count_app. cbn. lia.
      - apply (atmost_silent s0); try done. apply Hsing. by apply Hsg.
      - match goal with H : dc_signal _ _ _ = _ |- _ => apply dc_signalled in H; rename H into Hd end. by eapply (atmost_signal _ _ s0).
      - match goal with H : dc_signal _ _ _ = _ |- _ => apply dc_signalled in H; rename H into Hd end.
        eapply (atmost_signal _ _ s0) in Hd; [exact Hd|done|done|done]. }
    assert (Hend : ∀ err h1 s1 h2 s2 ks l, ends sid' err h1 s1 h2 s2 ks → atmost s1 l → atmost s2 (l ++ ks)).
    { intros err h1 s1 h2 s2 ks' l' (-> & _ & _ & _ & dc & Hdc & ->) [H1 H2]. split; [done|]. rewrite !count_app.
      rewrite (count_none _ (if _ && _ then _ else _)) by (intros k; destruct (_ && _); [by intros ->%elem_of_list_singleton|by intros ?%elem_of_nil]).
      unfold last_word in Hdc. destruct (s_cid s1) as [c|]; [|subst dc; cbn; lia].
      destruct (bool_decide (s_ticket s1 ∉ h_tracker h1)), (s_dc s1); cbn [andb] in Hdc; subst dc; cbn; try lia.
    }
    destruct Ha as [p e x Ho Hvd|p e x err h' s' ks Ho Hvd He|err h' s' ks He| | |k r a Hst Hc Ha]; try (rewrite app_nil_r; done).
    + by apply (Hout p e x).
    + rewrite app_assoc. eapply Hend; [exact He|]. by apply (Hout p e x).
    + by eapply Hend.
Qed.

(** * The table of the logged-in sessions *)

Definition listed (evs : list event) (n : node) : Prop :=
  ∀ c sid, h_online (n_shared n) !! c = Some sid → ∀ s, n_sess n !! sid = Some s → s_server s = true → no_failure evs sid → no_deregister evs sid →
    s_over s = false ∧ s_cid s = Some c ∧ provisional s = false.
Lemma no_deregister_app evs xs sid : no_deregister (evs ++ xs) sid → no_deregister evs sid.
Proof. intros H p Hp. by apply H, received_app. Qed.

Lemma outcome_named cf sid h s p e x : outcome cf sid h s p e x →
  o_creds (s_con s) = None → q_cons (s_pre s) = None → (∀ why, p_body p ≠ ConFailure why) → p_body p ≠ DeregStage0 → o_stage (s_con s) ≠ C1 →
  (∀ r, q_made (s_pre s) = Some r → s_cid s = Some (r_cid r)) →
  (∀ r, q_made (s_pre (x_sess x)) = Some r → s_cid (x_sess x) = Some (r_cid r)).
Proof.
  destruct 1; intros Hcr Hqc Hnf Hnd Hn1 IH; cbn [x_sess]; try congruence; try (cbn; by apply IH); try done.
  - cbn. intros r' [= <-]. done.
  - cbn. intros r' [= <-]. by apply IH.
  - cbn. intros r' [= <-]. by apply IH.
  - cbn. intros r' Hr. assert (Hm : q_made (s_pre s) = Some r) by by eapply keyed_made. congruence.
  - match goal with H : dc_signal _ _ _ = _ |- _ => apply dc_signalled, signalled_same in H as (_ & _ & _ & _ & E1 & _ & E2 & _) end.
    cbn. rewrite E1, E2. done.
Qed.

Lemma named_holds cf evs sid s : n_sess (the_node cf evs) !! sid = Some s → s_server s = true → no_failure evs sid → no_deregister evs sid →
  ∀ r, q_made (s_pre s) = Some r → s_cid s = Some (r_cid r).
Proof.
  apply (sess_inv cf (λ evs sid s, s_server s = true → no_failure evs sid → no_deregister evs sid → ∀ r, q_made (s_pre s) = Some r → s_cid s = Some (r_cid r))).
  - intros evs' xs sid' s' H Hsv H1 H2. apply H; [done|by eapply no_failure_app|by eapply no_deregister_app].
  - intros evs' h sid' i s' out Ho _ Hsv _ _. destruct (open_server _ _ _ _ _ Ho Hsv) as (t & -> & ->). done.
  - intros evs' sid' s0 i h' s' out ks Ha Hs Hov IH Hsv Hnf Hnd.
    rewrite (acted_server _ _ _ _ _ _ _ _ _ Ha) in Hsv.
    assert (Hz : ∀ r, q_made (s_pre s0) = Some r → s_cid s0 = Some (r_cid r)) by (apply IH; [done|by eapply no_failure_app|by eapply no_deregister_app]).
    destruct (srv_holds cf evs' sid' s0 Hs Hsv) as [Hv _].
    assert (Hout : ∀ p e x, i = Recv p e → outcome cf sid' (n_shared (the_node cf evs')) s0 p e x → ∀ r, q_made (s_pre (x_sess x)) = Some r → s_cid (x_sess x) = Some (r_cid r)).
    { intros p e x -> Ho. eapply outcome_named; [exact Ho|apply (v_creds _ _ _ _ Hv)|apply (v_qcons _ _ _ _ Hv)| | |apply (v_stage _ _ _ _ Hv)|done].
      - intros why Hb. pose proof (Hnf p (received_last _ _ _ _)) as Hx. by rewrite Hb in Hx.
      - apply Hnd, received_last. }
    destruct Ha as [p e x Ho Hvd|p e x err h' s' ks Ho Hvd He|err h' s' ks He| | |k r a Hst Hc Ha]; try done.
    + by apply (Hout p e x).
    + destruct He as (-> & _). by apply (Hout p e x).
    + destruct He as (-> & _). done.
Qed.

Lemma outcome_online cf sid h s p e x : outcome cf sid h s p e x → o_stage (s_con s) ≠ C1 →
  h_online (x_shared x) = h_online h ∨
  ∃ r, h_online (x_shared x) = <[r_cid r := sid]> (h_online h) ∧ q_made (s_pre s) = Some r ∧ provisional s = true ∧
    (x_verdict x = Go → s_cid (x_sess x) = Some (r_cid r) ∧ provisional (x_sess x) = false) ∧
    (s_cid s = Some (r_cid r) → s_cid (x_sess x) = Some (r_cid r)).
Proof.
  destruct 1; intros Hn1; cbn [x_shared x_verdict x_sess]; try (by left).
  - right. exists r. assert (Hm : q_made (s_pre s) = Some r) by by eapply keyed_made.
    split; [done|]. split; [done|]. split; [match goal with H : provisional s = true ∨ _ |- _ => by destruct H end|]. done.
  - right. exists r. assert (Hm : q_made (s_pre s) = Some r) by by eapply keyed_made.
    split; [done|]. split; [done|]. split; [match goal with H : provisional s = true ∨ _ |- _ => by destruct H end|]. done.
  - left. match goal with Hd : delete_client _ _ _ = _, Hs : dc_signal _ _ _ = _ |- _ =>
      apply dc_signalled, signalled_shared in Hs as [_ ->]; apply delete_client_cases in Hd; by destruct Hd as [(_ & _ & -> & _)|(_ & -> & _)] end.
  - left. match goal with Hd : delete_client _ _ _ = _, Hs : dc_signal _ _ _ = _ |- _ =>
      apply dc_signalled, signalled_shared in Hs as [_ ->]; apply delete_client_cases in Hd; by destruct Hd as [(_ & _ & -> & _)|(_ & -> & _)] end.
Qed.

Lemma outcome_nonprov cf sid h s p e x : outcome cf sid h s p e x → provisional s = false → o_stage (s_con s) ≠ C1 →
  (∀ why, p_body p ≠ ConFailure why) → p_body p ≠ DeregStage0 →
  s_cid (x_sess x) = s_cid s ∧ provisional (x_sess x) = false.
Proof.
  intros Ho Hp Hn1 Hnf Hnd.
  assert (Hne : early s → False) by (unfold early, provisional in *; intros [E|[E|E]]; by rewrite E in Hp).
  destruct Ho; cbn [x_sess]; try congruence; try (by exfalso; apply Hne); try (cbn; done);
    try (match goal with H : provisional s = true ∨ _ |- _ => destruct H; congruence end).
  match goal with H : dc_signal _ _ _ = _ |- _ => apply dc_signalled, signalled_same in H as (_ & _ & _ & _ & E1 & _) end. done.
Qed.

Lemma listed_holds cf evs : listed evs (the_node cf evs).
Proof.
  apply (node_inv cf listed); [done|]. intros evs' ev n' IH Hs.
  assert (IH' : ∀ c sid s, h_online (n_shared (the_node cf evs')) !! c = Some sid → n_sess (the_node cf evs') !! sid = Some s → s_server s = true →
      no_failure (evs' ++ [ev]) sid → no_deregister (evs' ++ [ev]) sid → s_over s = false ∧ s_cid s = Some c ∧ provisional s = false).
  { intros c sid s Hc Hs' Hsv Hnf Hnd. eapply IH; try done; [by eapply no_failure_app|by eapply no_deregister_app]. }
  assert (Hthere : ∀ c sid, h_online (n_shared (the_node cf evs')) !! c = Some sid → is_Some (n_sess (the_node cf evs') !! sid)).
  { clear. revert evs'. apply (node_inv cf (λ _ n, ∀ c sid, h_online (n_shared n) !! c = Some sid → is_Some (n_sess n !! sid))); [done|].
    intros evs' ev n' IH Hs c sid. destruct Hs as [ev|sid' i s out Hn Ho|sid' s i h' s' out ks Hn Ho Ha]; [apply IH| |]; cbn [n_sess n_shared]; intros Hc.
    - destruct (decide (sid = sid')) as [->|Hne]; [rewrite lookup_insert; eauto|rewrite lookup_insert_ne by done; eauto].
    - destruct (decide (sid = sid')) as [->|Hne]; [rewrite lookup_insert; eauto|rewrite lookup_insert_ne by done].
      apply (IH c). assert (Hout : ∀ p e x, outcome cf sid' (n_shared (the_node cf evs')) s p e x → h_online (x_shared x) !! c = Some sid → h_online (n_shared (the_node cf evs')) !! c = Some sid).
      { intros p e x Hx. destruct Hx; cbn; try done; try (rewrite lookup_insert_Some; intros [[_ ?]|[_ ?]]; congruence).
        all: match goal with Hd : delete_client _ _ _ = _, Hs : dc_signal _ _ _ = _ |- _ =>
          apply dc_signalled, signalled_shared in Hs as [_ ->]; apply delete_client_cases in Hd; by destruct Hd as [(_ & _ & -> & _)|(_ & -> & _)] end. }
      assert (Hend : ∀ err h1 s1 h2 s2 ks, ends sid' err h1 s1 h2 s2 ks → h_online h2 !! c = Some sid → h_online h1 !! c = Some sid).
      { intros err h1 s1 h2 s2 ks' (_ & _ & -> & _). unfold online_after. destruct (s_cid s1); [|done]. destruct (bool_decide _); [|done].
        rewrite lookup_delete_Some. tauto. }
      destruct Ha as [p e x Hx Hvd|p e x err h' s' ks Hx Hvd He|err h' s' ks He| | |k r a Hst Hc' Ha]; eauto. }
  destruct Hs as [ev|sid' i s out Hn Ho|sid' s i h' s' out ks Hn Ho Ha].
  - intros c sid Hc s Hs'. by apply IH'.
  - intros c sid Hc s1 Hs1. cbn [n_sess n_shared] in *. apply lookup_insert_Some in Hs1 as [[<- <-]|[Hne Hl]]; [|by eauto].
    destruct (Hthere c sid' Hc). congruence.
  - intros c sid Hc s1 Hs1 Hsv Hnf Hnd. cbn [n_sess n_shared] in *. apply lookup_insert_Some in Hs1 as [[<- <-]|[Hne Hl]].
    + rewrite (acted_server _ _ _ _ _ _ _ _ _ Ha) in Hsv.
      destruct (srv_holds cf evs' sid' s Hn Hsv) as [Hv _]. pose proof (v_stage _ _ _ _ Hv) as Hn1.
      assert (Hnm : ∀ r, q_made (s_pre s) = Some r → s_cid s = Some (r_cid r))
        by (apply (named_holds cf evs' sid'); [done|done|by eapply no_failure_app|by eapply no_deregister_app]).
      assert (Hb : ∀ p e, i = Recv p e → (∀ why, p_body p ≠ ConFailure why) ∧ p_body p ≠ DeregStage0).
      { intros p e ->. split; [|apply Hnd, received_last]. intros why Hb. pose proof (Hnf p (received_last _ _ _ _)) as Hx. by rewrite Hb in Hx. }
      assert (Hout : ∀ p e x, i = Recv p e → outcome cf sid' (n_shared (the_node cf evs')) s p e x → h_online (x_shared x) !! c = Some sid' →
         s_cid (x_sess x) = Some c ∧ (x_verdict x = Go → s_over (x_sess x) = false ∧ provisional (x_sess x) = false)).
      { intros p e x Hi Hx Hcx. rewrite (outcome_over _ _ _ _ _ _ _ Hx). destruct (Hb p e Hi) as [Hb1 Hb2].
        assert (Hold : h_online (n_shared (the_node cf evs')) !! c = Some sid' → s_cid (x_sess x) = Some c ∧ (x_verdict x = Go → s_over s = false ∧ provisional (x_sess x) = false)).
        { intros Hc0. destruct (IH' _ _ _ Hc0 Hn Hsv Hnf Hnd) as (H1 & H2 & H3).
          destruct (outcome_nonprov _ _ _ _ _ _ _ Hx H3 Hn1 Hb1 Hb2) as [-> ->]. done. }
        destruct (outcome_online _ _ _ _ _ _ _ Hx Hn1) as [E|(r & E & Hm & Hpv & Hgo & Hcid)]; rewrite E in Hcx; [by apply Hold|].
        apply lookup_insert_Some in Hcx as [[<- _]|[_ Hcx]]; [|by apply Hold].
        split; [by apply Hcid, Hnm|]. intros Hg. by destruct (Hgo Hg). }
      assert (Hend : ∀ err h1 s1 h2 s2 ks, ends sid' err h1 s1 h2 s2 ks → (h_online h1 !! c = Some sid' → s_cid s1 = Some c) → h_online h2 !! c = Some sid' → False).
      { intros err h1 s1 h2 s2 ks' (_ & _ & -> & _) Hx. unfold online_after.
        assert (Hc1 : h_online h1 !! c = Some sid' → (match s_cid s1 with Some c0 => if bool_decide (h_online h1 !! c0 = Some sid') then delete c0 (h_online h1) else h_online h1 | None => h_online h1 end) !! c = Some sid' → False).
        { intros Hy. rewrite (Hx Hy). rewrite bool_decide_eq_true_2 by done. by rewrite lookup_delete. }
        intros Hy. apply Hc1; [|done]. destruct (s_cid s1); [|done]. destruct (bool_decide _); [|done]. by apply lookup_delete_Some in Hy as [_ ?]. }
      destruct Ha as [p e x Hx Hvd|p e x err h' s' ks Hx Hvd He|err h' s' ks He| | |k r a Hst Hc' Ha].
      * destruct (Hout p e x eq_refl Hx Hc) as [H1 H2]. destruct (H2 Hvd). done.
      * exfalso. eapply Hend; [exact He| |exact Hc]. intros Hy. by destruct (Hout p e x eq_refl Hx Hy).
      * exfalso. eapply Hend; [exact He| |exact Hc]. intros Hy. by apply (IH' c sid' s).
      * by eapply IH'.
      * cbn. by destruct (IH' c sid' s Hc Hn Hsv Hnf Hnd).
      * cbn. by destruct (IH' c sid' s Hc Hn Hsv Hnf Hnd).
    + assert (Hout : ∀ p e x, outcome cf sid' (n_shared (the_node cf evs')) s p e x → h_online (x_shared x) !! c = Some sid → h_online (n_shared (the_node cf evs')) !! c = Some sid).
      { intros p e x Hx. destruct Hx; cbn; try done; try (rewrite lookup_insert_Some; intros [[_ ?]|[_ ?]]; congruence).
        all: match goal with Hd : delete_client _ _ _ = _, Hs : dc_signal _ _ _ = _ |- _ =>
          apply dc_signalled, signalled_shared in Hs as [_ ->]; apply delete_client_cases in Hd; by destruct Hd as [(_ & _ & -> & _)|(_ & -> & _)] end. }
      assert (Hend : ∀ err h1 s1 h2 s2 ks, ends sid' err h1 s1 h2 s2 ks → h_online h2 !! c = Some sid → h_online h1 !! c = Some sid).
      { intros err h1 s2' h2 s2 ks' (_ & _ & -> & _). unfold online_after. destruct (s_cid s2'); [|done]. destruct (bool_decide _); [|done].
        rewrite lookup_delete_Some. tauto. }
      eapply IH'; try done.
      destruct Ha as [p e x Hx Hvd|p e x err h' s' ks Hx Hvd He|err h' s' ks He| | |k r a Hst Hc' Ha]; eauto.
Qed.

(** * Two nodes that follow the protocol *)


Lemma talk_step n cfa cfb sida sidb ea eb a b ps b' out' a'' b'' :
  ps ≠ [] → receive cfb sidb eb b ps = (b', out') → talk n cfb cfa sidb sida eb ea b' a out' = (b'', a'') →
  talk (S n) cfa cfb sida sidb ea eb a b ps = (a'', b'').
Proof. intros Hn Hr Ht. cbn [talk]. rewrite Hr, Ht. by destruct ps. Qed.

Lemma receive_cons cf sid e h s ks p ps h' s' out ks' x out' :
  act cf sid h s (Recv p e) = (h', s', out, ks') → receive cf sid e (h', s', ks ++ ks') ps = (x, out') →
  receive cf sid e (h, s, ks) (p :: ps) = (x, out ++ out').
Proof. intros Ha Hr. cbn [receive]. by rewrite Ha, Hr. Qed.

Lemma opens_eq r p : p_seal p = Some (r_key r) → opens r p = true.
Proof. intros H. unfold opens. by rewrite bool_decide_eq_true_2. Qed.

Section honest.
  Context (cf : config) (sid : N) (h : shared) (s : sess) (p : packet) (e : oracle) (Hov : s_over s = false).

  Lemma act_go_eq h' s' out ks : process cf sid h s p e = mk_result h' s' out ks Go → act cf sid h s (Recv p e) = (h', s', out, ks).
  Proof. intros E. unfold act. by rewrite Hov, E. Qed.

  Lemma do_syn a k u : p_body p = Syn k u → provisional s = true → e_proceed e = true → h_store h !! p_cid p = Some a → p_seal p = Some (r_key (a_static a)) →
    act cf sid h s (Recv p e) =
      (h, set_cid (Some (p_cid p)) (set_cnac (Some a) (set_ticket (p_ticket p) (set_pre (mk_pre PSynAck (q_cons (s_pre s)) (Some (mk_ratchet (p_cid p) k)) (q_success (s_pre s)) u) s))),
       [mk_packet (r_cid (a_static a)) (p_ticket p) (Some (r_key (a_static a))) SynAck], []).
  Proof.
    intros Hb Hp He Hs Hk. apply act_go_eq. unfold process. rewrite Hb. unfold process_preconnect. rewrite Hp, Hb, He. cbn [negb].
    by rewrite Hs, (opens_eq _ _ Hk).
  Qed.

  Definition after_synack (r : ratchet) : list packet :=
    let stage0 := mk_packet (r_cid r) (p_ticket p) (Some (r_key r)) PreStage0 in
    let final b := mk_packet (r_cid r) (p_ticket p) (Some (r_key r)) (PreFinal true b) in
    if negb (q_udp (s_pre s)) then [stage0] else if e_quic e then [final false] else [stage0; final (negb (e_udp e))].

  Lemma do_synack a r : p_body p = SynAck → provisional s = true → s_cnac s = Some a → q_stage (s_pre s) = PSynAck → q_cons (s_pre s) = Some r →
    p_seal p = Some (r_key (a_static a)) →
    act cf sid h s (Recv p e) = (h, set_pre (mk_pre PSuccess None (Some r) (q_success (s_pre s)) (q_udp (s_pre s))) s, after_synack r, []).
  Proof.
    intros Hb Hp Hc Hq Hr Hk. apply act_go_eq. unfold process. rewrite Hb. unfold process_preconnect. rewrite Hp, Hb, Hc, Hq, Hr, (opens_eq _ _ Hk).
    cbn [negb]. unfold after_synack. destruct (q_udp (s_pre s)); [|done]. destruct (e_quic e); done.
  Qed.

  Lemma do_stage0_tcp r : p_body p = PreStage0 → provisional s = true → q_made (s_pre s) = Some r → q_stage (s_pre s) = PSynAck → p_seal p = Some (r_key r) → q_udp (s_pre s) = false →
    act cf sid h s (Recv p e) =
      (h, set_pre (mk_pre PSynAck (q_cons (s_pre s)) (Some r) true false) s, [mk_packet (r_cid r) (p_ticket p) (Some (r_key r)) BeginConnect], []).
  Proof.
    intros Hb Hp Hm Hq Hk Hu. apply act_go_eq. unfold process. rewrite Hb. unfold process_preconnect.
    by rewrite Hp, Hb, Hm, Hq, (opens_eq _ _ Hk), Hu.
  Qed.

  Lemma do_stage0_udp r : p_body p = PreStage0 → provisional s = true → q_made (s_pre s) = Some r → q_stage (s_pre s) = PSynAck → p_seal p = Some (r_key r) → q_udp (s_pre s) = true →
    act cf sid h s (Recv p e) = (h, set_pre (mk_pre PSuccess (q_cons (s_pre s)) (Some r) (q_success (s_pre s)) (e_udp e)) s, [], []).
  Proof.
    intros Hb Hp Hm Hq Hk Hu. apply act_go_eq. unfold process. rewrite Hb. unfold process_preconnect.
    by rewrite Hp, Hb, Hm, Hq, (opens_eq _ _ Hk), Hu.
  Qed.

  Lemma do_final r a b : p_body p = PreFinal true b → provisional s = true → q_made (s_pre s) = Some r → s_cnac s = Some a → p_seal p = Some (r_key r) →
    act cf sid h s (Recv p e) =
      (h, set_pre (mk_pre (q_stage (s_pre s)) (q_cons (s_pre s)) (Some r) true (q_udp (s_pre s) && true)) s, [mk_packet (r_cid r) (p_ticket p) (Some (r_key r)) BeginConnect], []).
  Proof.
    intros Hb Hp Hm Hc Hk. apply act_go_eq. unfold process. rewrite Hb. unfold process_preconnect. rewrite Hp, Hb, Hm, Hc, (opens_eq _ _ Hk).
    cbn [negb]. by rewrite andb_false_r.
  Qed.

  Lemma do_begin r c : p_body p = BeginConnect → provisional s = true → q_made (s_pre s) = Some r → q_stage (s_pre s) = PSuccess → p_seal p = Some (r_key r) →
    o_creds (s_con s) = Some c →
    act cf sid h s (Recv p e) =
      (h, set_state ConnectionProcess (set_con (mk_con C1 None (o_signal (s_con s))) (set_pre (mk_pre PSuccess (q_cons (s_pre s)) (Some r) true (q_udp (s_pre s))) s)),
       [mk_packet (r_cid r) (p_ticket p) (Some (r_key r)) (ConStage0 (Some c))], []).
  Proof.
    intros Hb Hp Hm Hq Hk Hc. apply act_go_eq. unfold process. rewrite Hb. unfold process_preconnect. rewrite Hp, Hb, Hm, Hq, (opens_eq _ _ Hk).
    cbn [negb]. change (o_creds (s_con (set_pre (mk_pre PSuccess (q_cons (s_pre s)) (Some r) true (q_udp (s_pre s))) s))) with (o_creds (s_con s)).
    by rewrite Hc.
  Qed.

  Lemma connect_start r a : provisional s = true ∨ o_stage (s_con s) = CSuccess → q_success (s_pre s) = true → safe_ratchet s = Some r → s_cnac s = Some a → p_seal p = Some (r_key r) →
    (negb (provisional s) && negb (bool_decide (o_stage (s_con s) = CSuccess)) = false) ∧ opens r p = true.
  Proof.
    intros Hp _ _ _ Hk. rewrite (opens_eq _ _ Hk). split; [|done]. destruct Hp as [->| ->]; [done|]. by rewrite andb_false_r.
  Qed.

  Lemma do_con0 r a : s_cnac s = Some a → p_body p = ConStage0 (Some (a_creds a)) → provisional s = true → q_success (s_pre s) = true → q_made (s_pre s) = Some r →
    p_seal p = Some (r_key r) → o_stage (s_con s) = C0 → s_ticket s = p_ticket p → e_upgrade e = true → e_store e = true →
    act cf sid h s (Recv p e) =
      (set_online (<[r_cid r := sid]> (h_online h)) h,
       set_state Connected (set_cid (Some (r_cid r)) (set_con (mk_con CSuccess (o_creds (s_con s)) (Some (KConnectSuccess (s_ticket s) (r_cid r) (p_cid p))))
           (set_conn (Some r) (set_con (mk_con CSuccess (o_creds (s_con s)) (o_signal (s_con s))) s)))),
       [mk_packet (r_cid r) (s_ticket s) (Some (r_key r)) ConSuccess], []).
  Proof.
    intros Ha Hb Hp Hq Hm Hk Hst Ht He1 He2. apply act_go_eq. unfold process. rewrite Hb. unfold process_connect.
    assert (Hsr : safe_ratchet s = Some r) by (unfold safe_ratchet, provisional in *; by destruct (s_state s)).
    destruct (connect_start r a) as [E1 E2]; auto. rewrite E1, Hq, Hsr, Ha, E2. cbn [negb]. rewrite Hb.
    rewrite (bool_decide_eq_false_2 (o_stage (s_con s) = CSuccess)) by congruence. rewrite (bool_decide_eq_true_2 (Some (a_creds a) = Some (a_creds a))) by done.
    rewrite (bool_decide_eq_true_2 (s_ticket s = p_ticket p)) by done. rewrite He1, He2. done.
  Qed.

  Lemma do_con0_wrong r a c : s_cnac s = Some a → p_body p = ConStage0 c → c ≠ Some (a_creds a) → provisional s = true → q_success (s_pre s) = true → q_made (s_pre s) = Some r →
    p_seal p = Some (r_key r) → o_stage (s_con s) = C0 →
    act cf sid h s (Recv p e) = (h, s, [mk_packet (r_cid r) (p_ticket p) (Some (r_key r)) (ConFailure why_credentials)], []).
  Proof.
    intros Ha Hb Hne Hp Hq Hm Hk Hst. apply act_go_eq. unfold process. rewrite Hb. unfold process_connect.
    assert (Hsr : safe_ratchet s = Some r) by (unfold safe_ratchet, provisional in *; by destruct (s_state s)).
    destruct (connect_start r a) as [E1 E2]; auto. rewrite E1, Hq, Hsr, Ha, E2. cbn [negb]. rewrite Hb.
    rewrite (bool_decide_eq_false_2 (o_stage (s_con s) = CSuccess)) by congruence. by rewrite (bool_decide_eq_false_2 (c = Some (a_creds a))).
  Qed.

  Lemma do_con_failure r a why : p_body p = ConFailure why → provisional s = true → q_success (s_pre s) = true → q_made (s_pre s) = Some r → s_cnac s = Some a →
    p_seal p = Some (r_key r) → s_server s = false →
    ∃ h' s', s_over s' = true ∧ act cf sid h s (Recv p e) = (h', s', [], [KConnectFail (s_ticket s) (r_cid r) why; KError (s_request s)]).
  Proof.
    intros Hb Hp Hq Hm Ha Hk Hsv. unfold act. rewrite Hov.
    assert (E : process cf sid h s p e = mk_result h (set_dc false (set_state NeedsConnect (set_cid None (set_con (mk_con CFailed (o_creds (s_con s)) (o_signal (s_con s))) s))))
            [] [KConnectFail (s_ticket s) (r_cid r) why] End).
    { unfold process. rewrite Hb. unfold process_connect.
      assert (Hsr : safe_ratchet s = Some r) by (unfold safe_ratchet, provisional in *; by destruct (s_state s)).
      destruct (connect_start r a) as [E1 E2]; auto. rewrite E1, Hq, Hsr, Ha, E2. cbn [negb]. by rewrite Hb. }
    rewrite E. cbn [x_verdict x_shared x_sess x_send x_tell].
    destruct (finish sid true h _) as [[h' s'] ks] eqn:Ef. apply finish_spec in Ef as (-> & _ & _ & _ & dc & Hdc & ->).
    exists h', (finished (set_state Disconnecting (set_dc false (set_state NeedsConnect (set_cid None (set_con (mk_con CFailed (o_creds (s_con s)) (o_signal (s_con s))) s)))))).
    split; [done|]. unfold last_word in Hdc. cbn in Hdc. subst dc. cbn. by rewrite Hsv.
  Qed.

  Lemma do_con_success r a : p_body p = ConSuccess → provisional s = true → q_success (s_pre s) = true → q_made (s_pre s) = Some r → s_cnac s = Some a →
    p_seal p = Some (r_key r) → o_stage (s_con s) = C1 → e_upgrade e = true → e_store e = true →
    act cf sid h s (Recv p e) =
      (set_online (<[r_cid r := sid]> (h_online h)) h,
       set_state Connected (set_cid (Some (r_cid r)) (set_conn (Some r) (set_con (mk_con CSuccess (o_creds (s_con s)) (o_signal (s_con s))) s))),
       [mk_packet (r_cid r) (p_ticket p) (Some (r_key r)) ConSuccessAck], [KConnectSuccess (s_ticket s) (r_cid r) (p_cid p)]).
  Proof.
    intros Hb Hp Hq Hm Ha Hk Hst He1 He2. apply act_go_eq. unfold process. rewrite Hb. unfold process_connect.
    assert (Hsr : safe_ratchet s = Some r) by (unfold safe_ratchet, provisional in *; by destruct (s_state s)).
    destruct (connect_start r a) as [E1 E2]; auto. rewrite E1, Hq, Hsr, Ha, E2. cbn [negb]. rewrite Hb, (bool_decide_eq_true_2 _ Hst), He1, He2. done.
  Qed.

  Lemma do_ack r a c k : p_body p = ConSuccessAck → q_success (s_pre s) = true → s_state s = Connected → s_conn s = Some r → s_cnac s = Some a →
    p_seal p = Some (r_key r) → o_stage (s_con s) = CSuccess → s_server s = true → s_conn s = Some c → o_signal (s_con s) = Some k →
    act cf sid h s (Recv p e) = (h, set_con (mk_con (o_stage (s_con s)) (o_creds (s_con s)) None) s, [], [k]).
  Proof.
    intros Hb Hq Hst Hr Ha Hk Hcs Hsv Hc Hsg. apply act_go_eq. unfold process. rewrite Hb. unfold process_connect.
    assert (Hsr : safe_ratchet s = Some r) by (unfold safe_ratchet; by rewrite Hst).
    destruct (connect_start r a) as [E1 E2]; auto. rewrite E1, Hq, Hsr, Ha, E2. cbn [negb]. by rewrite Hb, Hsv, Hc, Hsg.
  Qed.

  (** registration *)
  Lemma do_reg0 tr k : p_body p = RegStage0 Good tr k → early s → (tr = true → f_transient cf = true) → g_stage (s_reg s) = G0 →
    act cf sid h s (Recv p e) = (h, set_reg (mk_reg G1 (g_cons (s_reg s)) (Some (mk_ratchet (p_cid p) k)) (Some tr)) s,
       [mk_packet (p_cid p) (p_ticket p) None (RegStage1 Good)], []).
  Proof.
    intros Hb He Ht Hg. apply act_go_eq. unfold process. rewrite Hb. unfold process_register. rewrite Hb.
    assert (E : tr && negb (f_transient cf) = false) by (destruct tr; [by rewrite Ht|done]).
    rewrite E, Hg. unfold early in He. destruct He as [->|[->| ->]]; done.
  Qed.

  Lemma do_reg0_transient q k : p_body p = RegStage0 q true k → q ≠ Garbled → early s → f_transient cf = false → s_server s = true → s_cid s = None → s_cnac s = None →
    ∃ s', act cf sid h s (Recv p e) = (h, s', [mk_packet (p_cid p) (p_ticket p) None (RegFailure why_transient)], []) ∧ s_over s' = true.
  Proof.
    intros Hb Hq He Ht Hsv Hcid Hcn. unfold act. rewrite Hov.
    assert (E : process cf sid h s p e = mk_result h s [mk_packet (p_cid p) (p_ticket p) None (RegFailure why_transient)] [] End).
    { unfold process. rewrite Hb. unfold process_register. rewrite Hb, Ht. unfold early in He.
      destruct He as [->|[->| ->]], q; done. }
    rewrite E. cbn [x_verdict x_shared x_sess x_send x_tell]. unfold finish, dc_signal. cbn [s_cid set_state]. rewrite Hcid. cbn. rewrite ?Hcid, ?Hcn. cbn. rewrite ?Hcid, ?Hcn. cbn. rewrite ?Hsv. cbn. by eexists.
  Qed.

  Lemma do_reg1 r c : p_body p = RegStage1 Good → early s → g_cons (s_reg s) = Some r → o_creds (s_con s) = Some c →
    act cf sid h s (Recv p e) = (h, set_reg (mk_reg G2 None (Some r) (g_transient (s_reg s))) (set_reg (mk_reg (g_stage (s_reg s)) None (g_made (s_reg s)) (g_transient (s_reg s))) s),
       [mk_packet (r_cid r) (p_ticket p) (Some (r_key r)) (RegStage2 c)], []).
  Proof.
    intros Hb He Hg Hc. apply act_go_eq. unfold process. rewrite Hb. unfold process_register. rewrite Hb, Hg. cbv zeta.
    change (o_creds (s_con (set_reg (mk_reg (g_stage (s_reg s)) None (g_made (s_reg s)) (g_transient (s_reg s))) s))) with (o_creds (s_con s)).
    rewrite Hc. unfold early in He. destruct He as [->|[->| ->]]; done.
  Qed.

  Lemma do_reg2 r c : p_body p = RegStage2 c → early s → g_stage (s_reg s) = G1 → g_made (s_reg s) = Some r → p_seal p = Some (r_key r) → ((f_cid cf (c_user c) =? 0) || negb (f_accept cf c) || bool_decide (is_Some (h_store h !! f_cid cf (c_user c))) || negb (e_store e)) = false →
    act cf sid h s (Recv p e) =
      (set_store (<[f_cid cf (c_user c) := mk_account (f_cid cf (c_user c)) c r]> (h_store h)) h, s, [mk_packet (r_cid r) (p_ticket p) (Some (r_key r)) RegSuccess], []).
  Proof.
    intros Hb He Hg Hm Hk Ec. apply act_go_eq. unfold process. rewrite Hb. unfold process_register. rewrite Hb, Hg, Hm, (opens_eq _ _ Hk).
    cbv zeta. rewrite Ec. unfold early in He. destruct He as [->|[->| ->]]; done.
  Qed.

  Lemma do_reg2_refused r c : p_body p = RegStage2 c → early s → g_stage (s_reg s) = G1 → g_made (s_reg s) = Some r → p_seal p = Some (r_key r) → ((f_cid cf (c_user c) =? 0) || negb (f_accept cf c) || bool_decide (is_Some (h_store h !! f_cid cf (c_user c))) || negb (e_store e)) = true →
    act cf sid h s (Recv p e) = (h, s, [mk_packet (p_cid p) (p_ticket p) None (RegFailure why_account)], []).
  Proof.
    intros Hb He Hg Hm Hk Ec. apply act_go_eq. unfold process. rewrite Hb. unfold process_register. rewrite Hb, Hg, Hm, (opens_eq _ _ Hk).
    cbv zeta. rewrite Ec. unfold early in He. destruct He as [->|[->| ->]]; done.
  Qed.

  Lemma do_reg_success r c : p_body p = RegSuccess → early s → g_stage (s_reg s) = G2 → g_made (s_reg s) = Some r → p_seal p = Some (r_key r) →
    o_creds (s_con s) = Some c → g_transient (s_reg s) = Some false → f_cid cf (c_user c) ≠ 0 → e_store e = true → s_cid s = None → s_cnac s = None →
    ∃ h' s', act cf sid h s (Recv p e) = (h', s', [], [KRegisterOkay (s_ticket s) (f_cid cf (c_user c))]) ∧ s_over s' = true ∧
      h_store h' = <[f_cid cf (c_user c) := mk_account (f_cid cf (c_user c)) c r]> (h_store h).
  Proof.
    intros Hb He Hg Hm Hk Hc Ht Hcid He2 Hs Hcn. unfold act. rewrite Hov.
    assert (E : process cf sid h s p e = mk_result (set_store (<[f_cid cf (c_user c) := mk_account (f_cid cf (c_user c)) c r]> (h_store h)) h) (set_state Disconnecting s) [] [KRegisterOkay (s_ticket s) (f_cid cf (c_user c))] Stop).
    { unfold process. rewrite Hb. unfold process_register. rewrite Hb, Hg, Hm, (opens_eq _ _ Hk), Hc, Ht. cbv zeta.
      rewrite (proj2 (N.eqb_neq _ _) Hcid), He2. cbn [orb negb]. unfold early in He. destruct He as [->|[->| ->]]; done. }
    rewrite E. cbn [x_verdict x_shared x_sess x_send x_tell].
    destruct (finish sid false _ _) as [[h' s'] ks] eqn:Ef. apply finish_spec in Ef as (-> & Hst & _ & _ & dc & Hdc & ->).
    eexists h', (finished _). split; [|split; [done|]].
    - unfold last_word in Hdc. cbn in Hdc. rewrite Hs in Hdc. subst dc. cbn. by rewrite andb_false_r.
    - rewrite Hst. unfold store_after. cbn. by rewrite Hcn.
  Qed.

  Lemma do_reg_failure why : p_body p = RegFailure why → early s → g_stage (s_reg s) = G2 → s_server s = false → s_cid s = None → s_cnac s = None →
    ∃ h' s', act cf sid h s (Recv p e) = (h', s', [], [KRegisterFailure (s_ticket s) why; KError (s_request s)]) ∧ s_over s' = true ∧ h_store h' = h_store h.
  Proof.
    intros Hb He Hg Hsv Hs Hcn. unfold act. rewrite Hov.
    assert (E : process cf sid h s p e = mk_result h (set_state Disconnecting s) [] [KRegisterFailure (s_ticket s) why] End).
    { unfold process. rewrite Hb. unfold process_register. rewrite Hb, Hg. unfold early in He. destruct He as [->|[->| ->]]; done. }
    rewrite E. cbn [x_verdict x_shared x_sess x_send x_tell].
    destruct (finish sid true _ _) as [[h' s'] ks] eqn:Ef. apply finish_spec in Ef as (-> & Hst & _ & _ & dc & Hdc & ->).
    eexists h', (finished _). split; [|split; [done|]].
    - unfold last_word in Hdc. cbn in Hdc. rewrite Hs in Hdc. subst dc. cbn. by rewrite Hsv.
    - rewrite Hst. unfold store_after. cbn. by rewrite Hcn.
  Qed.
End honest.

Ltac hop1 := eapply talk_step; [done| |]; cbn [app].
Ltac rc l := eapply receive_cons; [eapply l; (reflexivity || eassumption || done)|]; cbn [app].

Lemma login_talk cfa cfb sida sidb ha hb ea eb c cr st t t' k udp :
  h_store ha !! c = Some (mk_account c cr st) → h_store hb !! c = Some (mk_account c cr st) → r_cid st = c → works ea → works eb →
  ∀ s out sv outv, open_session cfa ha (OpenConnect t k c cr udp) = Some (s, out) → open_session cfb hb (Accept t') = Some (sv, outv) →
  ∃ ha' hb' s1 s2,
    talk 7 cfa cfb sida sidb ea eb (ha, s, []) (hb, sv, []) out = ((ha', s1, [KConnectSuccess t c c]), (hb', s2, [KConnectSuccess t c c])) ∧
    s_state s1 = Connected ∧ s_state s2 = Connected ∧ s_conn s1 = Some (mk_ratchet c k) ∧ s_conn s2 = Some (mk_ratchet c k) ∧
    h_online ha' !! c = Some sida ∧ h_online hb' !! c = Some sidb ∧ h_store ha' = h_store ha ∧ h_store hb' = h_store hb.
Proof.
  intros Ha Hb Hc (E1 & E2 & E3) (E4 & E5 & E6) s out sv outv Hs Hv. destruct st as [rc rk]. cbn in Hc. subst rc.
  unfold open_session in *. rewrite Ha in Hs. apply (inj Some) in Hs, Hv. unfold begin_connect, blank in *.
  injection Hs as <- <-. injection Hv as <- <-.
  assert (Hins : ∀ (m : gmap N N) x, <[c := x]> m !! c = Some x) by (intros; apply lookup_insert).
  destruct udp; [destruct (e_quic ea) eqn:Eq|].
  - (* QUIC *)
    do 4 eexists. split.
    { hop1; [rc do_syn; reflexivity|]. hop1; [rc do_synack; reflexivity|]. unfold after_synack. cbn [q_udp s_pre set_pre set_cnac set_state negb]. rewrite Eq. cbn [app].
      hop1; [rc do_final; reflexivity|]. hop1; [rc do_begin; reflexivity|]. hop1; [rc do_con0; reflexivity|].
      hop1; [rc do_con_success; reflexivity|]. hop1; [rc do_ack; reflexivity|]. reflexivity. }
    cbn. auto 10.
  - do 4 eexists. split.
    { hop1; [rc do_syn; reflexivity|]. hop1; [rc do_synack; reflexivity|]. unfold after_synack. cbn [q_udp s_pre set_pre set_cnac set_state negb]. rewrite Eq. cbn [app].
      hop1; [rc do_stage0_udp; rc do_final; reflexivity|]. hop1; [rc do_begin; reflexivity|]. hop1; [rc do_con0; reflexivity|].
      hop1; [rc do_con_success; reflexivity|]. hop1; [rc do_ack; reflexivity|]. reflexivity. }
    cbn. auto 10.
  - do 4 eexists. split.
    { hop1; [rc do_syn; reflexivity|]. hop1; [rc do_synack; reflexivity|]. unfold after_synack. cbn [q_udp s_pre set_pre set_cnac set_state negb app].
      hop1; [rc do_stage0_tcp; reflexivity|]. hop1; [rc do_begin; reflexivity|]. hop1; [rc do_con0; reflexivity|].
      hop1; [rc do_con_success; reflexivity|]. hop1; [rc do_ack; reflexivity|]. reflexivity. }
    cbn. auto 10.
Qed.

Lemma refused_talk cfa cfb sida sidb ha hb ea eb c cr cr' cl st t t' k udp :
  h_store ha !! c = Some (mk_account c cr' st) → h_store hb !! c = Some (mk_account c cr st) → r_cid st = c → cl ≠ cr → works ea → works eb →
  ∀ s out sv outv, open_session cfa ha (OpenConnect t k c cl udp) = Some (s, out) → open_session cfb hb (Accept t') = Some (sv, outv) →
  ∃ ha' hb' s1 s2,
    talk 7 cfa cfb sida sidb ea eb (ha, s, []) (hb, sv, []) out = ((ha', s1, [KConnectFail t c why_credentials; KError t]), (hb', s2, [])) ∧
    s_over s1 = true ∧ s_conn s2 = None ∧ s_state s2 ≠ Connected ∧ h_online hb' = h_online hb.
Proof.
  intros Ha Hb Hc Hne (E1 & E2 & E3) (E4 & E5 & E6) s out sv outv Hs Hv. destruct st as [rc rk]. cbn in Hc. subst rc.
  unfold open_session in *. rewrite Ha in Hs. apply (inj Some) in Hs, Hv. unfold begin_connect, blank in *.
  injection Hs as <- <-. injection Hv as <- <-.
  assert (Hw : Some cl ≠ Some cr) by congruence.
  assert (Hlast : ∀ sx kx r a, s_over sx = false → provisional sx = true → q_success (s_pre sx) = true → q_made (s_pre sx) = Some (mk_ratchet c r) → s_cnac sx = Some a →
     s_server sx = false → s_ticket sx = t → s_request sx = t → kx = @nil kevent →
     ∃ ha' s1, s_over s1 = true ∧
       receive cfa sida ea (ha, sx, kx) [mk_packet c t (Some r) (ConFailure why_credentials)] = ((ha', s1, [KConnectFail t c why_credentials; KError t]), [])).
  { intros sx kx r a Hov Hp Hq Hm Hcn Hsv Ht Hr ->.
    destruct (do_con_failure cfa sida ha sx (mk_packet c t (Some r) (ConFailure why_credentials)) ea Hov (mk_ratchet c r) a why_credentials) as (h' & s' & Ho & Hact); try done.
    exists h', s'. split; [done|]. cbn [receive]. rewrite Hact, Ht, Hr. done. }
  destruct udp; [destruct (e_quic ea) eqn:Eq|].
  - edestruct Hlast as (ha' & s1 & Ho & Hrc); [..|do 4 eexists; split; [|split; [exact Ho|]]].
    10: { hop1; [rc do_syn; reflexivity|]. hop1; [rc do_synack; reflexivity|]. unfold after_synack. cbn [q_udp s_pre set_pre set_cnac set_state negb]. rewrite Eq. cbn [app].
      hop1; [rc do_final; reflexivity|]. hop1; [rc do_begin; reflexivity|].
      hop1; [rc do_con0_wrong; reflexivity|].
      hop1; [exact Hrc|]. reflexivity. }
    all: try reflexivity. by cbn.
  - edestruct Hlast as (ha' & s1 & Ho & Hrc); [..|do 4 eexists; split; [|split; [exact Ho|]]].
    10: { hop1; [rc do_syn; reflexivity|]. hop1; [rc do_synack; reflexivity|]. unfold after_synack. cbn [q_udp s_pre set_pre set_cnac set_state negb]. rewrite Eq. cbn [app].
      hop1; [rc do_stage0_udp; rc do_final; reflexivity|]. hop1; [rc do_begin; reflexivity|].
      hop1; [rc do_con0_wrong; reflexivity|].
      hop1; [exact Hrc|]. reflexivity. }
    all: try reflexivity. by cbn.
  - edestruct Hlast as (ha' & s1 & Ho & Hrc); [..|do 4 eexists; split; [|split; [exact Ho|]]].
    10: { hop1; [rc do_syn; reflexivity|]. hop1; [rc do_synack; reflexivity|]. unfold after_synack. cbn [q_udp s_pre set_pre set_cnac set_state negb app].
      hop1; [rc do_stage0_tcp; reflexivity|]. hop1; [rc do_begin; reflexivity|].
      hop1; [rc do_con0_wrong; reflexivity|].
      hop1; [exact Hrc|]. reflexivity. }
    all: try reflexivity. by cbn.
Qed.

Lemma register_talk cfa cfb sida sidb ha hb ea eb cr t t' k :
  let c := f_cid cfa (c_user cr) in
  f_cid cfb (c_user cr) = c → c ≠ 0 → f_accept cfb cr = true → h_store hb !! c = None → works ea → works eb →
  ∀ s out sv outv, open_session cfa ha (OpenRegister t k cr) = Some (s, out) → open_session cfb hb (Accept t') = Some (sv, outv) →
  ∃ ha' hb' s1 s2,
    talk 7 cfa cfb sida sidb ea eb (ha, s, []) (hb, sv, []) out = ((ha', s1, [KRegisterOkay t c]), (hb', s2, [])) ∧
    h_store ha' = <[c := mk_account c cr (mk_ratchet c k)]> (h_store ha) ∧
    h_store hb' = <[c := mk_account c cr (mk_ratchet c k)]> (h_store hb).
Proof.
  intros c Hcb Hc0 Hacc Hnone (E1 & E2 & E3) (E4 & E5 & E6) s out sv outv Hs Hv.
  unfold open_session in *. apply (inj Some) in Hs, Hv. unfold blank in *. injection Hs as <- <-. injection Hv as <- <-.
  assert (Ec : ((f_cid cfb (c_user cr) =? 0) || negb (f_accept cfb cr) || bool_decide (is_Some (h_store hb !! f_cid cfb (c_user cr))) || negb (e_store eb)) = false).
  { rewrite Hcb, Hacc, E6, (proj2 (N.eqb_neq _ _) Hc0), Hnone. by rewrite bool_decide_eq_false_2 by (by intros [? ?]). }
  assert (Hlast : ∀ sx, s_over sx = false → early sx → g_stage (s_reg sx) = G2 → g_made (s_reg sx) = Some (mk_ratchet c k) → o_creds (s_con sx) = Some cr →
     g_transient (s_reg sx) = Some false → s_cid sx = None → s_cnac sx = None → s_ticket sx = t →
     ∃ ha' s1, h_store ha' = <[c := mk_account c cr (mk_ratchet c k)]> (h_store ha) ∧
       receive cfa sida ea (ha, sx, []) [mk_packet c t (Some k) RegSuccess] = ((ha', s1, [KRegisterOkay t c]), [])).
  { intros sx Hov He Hg Hm Hcr Htr Hcid Hcn Ht.
    destruct (do_reg_success cfa sida ha sx (mk_packet c t (Some k) RegSuccess) ea Hov (mk_ratchet c k) cr) as (h' & s' & Hact & _ & Hst); try done.
    exists h', s'. split; [done|]. cbn [receive]. rewrite Hact, Ht. done. }
  edestruct Hlast as (ha' & s1 & Ho & Hrc); [..|do 4 eexists; split; [|split; [exact Ho|]]].
  10: { hop1; [eapply receive_cons; [eapply do_reg0; [reflexivity|reflexivity|right; left; reflexivity|done|reflexivity]|]; reflexivity|]. cbn [app].
    hop1; [eapply receive_cons; [eapply do_reg1; [reflexivity|reflexivity|left; reflexivity|reflexivity|reflexivity]|]; reflexivity|]. cbn [app].
    hop1; [eapply receive_cons; [eapply do_reg2; [reflexivity|reflexivity|right; left; reflexivity|reflexivity|reflexivity|reflexivity|exact Ec]|]; reflexivity|]. cbn [app].
    hop1; [exact Hrc|]. reflexivity. }
  all: try reflexivity.
  - left. reflexivity.
  - cbn. rewrite Hcb. reflexivity.
Qed.

Lemma register_refused_talk cfa cfb sida sidb ha hb ea eb cr t t' k :
  let c := f_cid cfa (c_user cr) in
  f_cid cfb (c_user cr) = c → (f_accept cfb cr = false ∨ is_Some (h_store hb !! c)) → works ea → works eb →
  ∀ s out sv outv, open_session cfa ha (OpenRegister t k cr) = Some (s, out) → open_session cfb hb (Accept t') = Some (sv, outv) →
  ∃ ha' hb' s1 s2,
    talk 7 cfa cfb sida sidb ea eb (ha, s, []) (hb, sv, []) out = ((ha', s1, [KRegisterFailure t why_account; KError t]), (hb', s2, [])) ∧
    h_store ha' = h_store ha ∧ h_store hb' = h_store hb.
Proof.
  intros c Hcb Hno (E1 & E2 & E3) (E4 & E5 & E6) s out sv outv Hs Hv.
  unfold open_session in *. apply (inj Some) in Hs, Hv. unfold blank in *. injection Hs as <- <-. injection Hv as <- <-.
  assert (Ec : ((f_cid cfb (c_user cr) =? 0) || negb (f_accept cfb cr) || bool_decide (is_Some (h_store hb !! f_cid cfb (c_user cr))) || negb (e_store eb)) = true).
  { rewrite Hcb. destruct Hno as [->|Hi]; [by rewrite orb_true_r|]. rewrite (bool_decide_eq_true_2 _ Hi). by rewrite orb_true_r. }
  assert (Hlast : ∀ sx, s_over sx = false → early sx → g_stage (s_reg sx) = G2 →
     s_server sx = false → s_cid sx = None → s_cnac sx = None → s_ticket sx = t → s_request sx = t →
     ∃ ha' s1, h_store ha' = h_store ha ∧
       receive cfa sida ea (ha, sx, []) [mk_packet c t None (RegFailure why_account)] = ((ha', s1, [KRegisterFailure t why_account; KError t]), [])).
  { intros sx Hov He Hg Hsv Hcid Hcn Ht Hrq.
    destruct (do_reg_failure cfa sida ha sx (mk_packet c t None (RegFailure why_account)) ea Hov why_account) as (h' & s' & Hact & _ & Hst); try done.
    exists h', s'. split; [done|]. cbn [receive]. rewrite Hact, Ht, Hrq. done. }
  edestruct Hlast as (ha' & s1 & Ho & Hrc); [..|do 4 eexists; split; [|split; [exact Ho|]]].
  9: { hop1; [eapply receive_cons; [eapply do_reg0; [reflexivity|reflexivity|right; left; reflexivity|done|reflexivity]|]; reflexivity|]. cbn [app].
    hop1; [eapply receive_cons; [eapply do_reg1; [reflexivity|reflexivity|left; reflexivity|reflexivity|reflexivity]|]; reflexivity|]. cbn [app].
    hop1; [eapply receive_cons; [eapply do_reg2_refused; [reflexivity|reflexivity|right; left; reflexivity|reflexivity|reflexivity|reflexivity|exact Ec]|]; reflexivity|]. cbn [app].
    hop1; [exact Hrc|]. reflexivity. }
  all: try reflexivity.
  left. reflexivity.
Qed.

(** a check for concrete histories *)
Definition has_syn (evs : list event) (sid c : N) : bool :=
  existsb (λ ev, match ev with
                 | In s (Recv p _) => (s =? sid) && (p_cid p =? c) && (match p_body p with Syn _ _ => true | _ => false end)
                 | _ => false end) evs.

Lemma device_has_syn cf evs sid c k a : device cf evs sid c k a → has_syn evs sid c = true.
Proof.
  intros (b & p & e & af & u & -> & Hb & Hc & _). unfold has_syn. rewrite existsb_app. cbn [existsb].
  rewrite Hb, Hc, !N.eqb_refl. by rewrite orb_true_r.
Qed.

Lemma authenticated_has_syn cf evs sid c : authenticated cf evs sid c → has_syn evs sid c = true.
Proof.
  intros (b & p & e & af & k & a & -> & Hd & _). apply device_has_syn in Hd. unfold has_syn in *. rewrite existsb_app. by rewrite Hd.
Qed.

(** the same for requests of the user *)
Definition asked (evs : list event) (sid : N) : bool :=
  existsb (λ ev, match ev with In s (AskDeregister _) => s =? sid | _ => false end) evs.
Lemma asked_in evs sid t : In sid (AskDeregister t) ∈ evs → asked evs sid = true.
Proof.
  intros H. unfold asked. apply existsb_exists. exists (In sid (AskDeregister t)). split; [by apply elem_of_list_In|apply N.eqb_refl].
Qed.

(** * Tickets *)

Lemma no_syn_app evs xs sid : no_syn (evs ++ xs) sid → no_syn evs sid.
Proof. intros H p Hp. apply H. by apply received_app. Qed.

Definition ticketed (evs : list event) (sid : N) (s : sess) (l : list kevent) : Prop :=
  (∃ i, opened evs sid i ∧ request i = s_request s) ∧
  (s_server s = false → no_syn evs sid → s_ticket s = s_request s ∧ Forall (answers (s_request s)) l).

Lemma outcome_request cf sid h s p e x : outcome cf sid h s p e x → s_request (x_sess x) = s_request s.
Proof.
  destruct 1; cbn [x_sess]; try done.
  all: match goal with H : dc_signal _ _ _ = _ |- _ => apply dc_signalled, signalled_same in H as (_ & _ & _ & _ & _ & _ & _ & _ & E & _) end; cbn in *; congruence.
Qed.

Lemma outcome_ticketed cf sid h s p e x : outcome cf sid h s p e x → s_server s = false →
  match p_body p with Syn _ _ => False | _ => True end →
  s_ticket (x_sess x) = s_ticket s ∧ Forall (answers (s_ticket s)) (x_tell x).
Proof.
  intros Ho Hsv Hb.
  assert (Hdc : ∀ t h s h' s' ks t', dc_signal t h s = (h', s', ks) → s_ticket s' = s_ticket s ∧ Forall (answers t') ks).
  { clear. intros t h s h' s' ks t' H. apply dc_signalled in H. destruct H; cbn; (split; [done|]); [apply Forall_nil_2|apply Forall_nil_2|apply Forall_cons_2; [done|apply Forall_nil_2]]. }
  destruct Ho; cbn [x_sess x_tell];
    try (split; [done|first [apply Forall_nil_2 | apply Forall_cons_2; [done|apply Forall_nil_2]]]).
  - exfalso. match goal with H : p_body p = Syn _ _ |- _ => by rewrite H in Hb end.
  - congruence.
  - match goal with H : dc_signal _ _ _ = _ |- _ => destruct (Hdc _ _ _ _ _ _ (s_ticket s) H) as [E1 E2] end. split; [done|]. by apply Forall_cons_2.
  - match goal with H : dc_signal _ _ _ = _ |- _ => destruct (Hdc _ _ _ _ _ _ (s_ticket s) H) as [E1 E2] end. split; [done|]. by apply Forall_cons_2.
Qed.

Lemma ends_ticketed sid err h s h' s' ks : ends sid err h s h' s' ks →
  s_ticket s' = s_ticket s ∧ s_request s' = s_request s ∧ Forall (answers (s_request s)) ks.
Proof.
  intros He. pose proof (ends_tell _ _ _ _ _ _ _ He) as Ht. destruct He as (-> & _). split; [done|]. split; [done|].
  apply Forall_forall. intros k Hk. by destruct (Ht k Hk) as [(c & _ & ->)| ->].
Qed.

Lemma ticketed_holds cf evs sid s : n_sess (the_node cf evs) !! sid = Some s → ticketed evs sid s (told (the_node cf evs) sid).
Proof.
  apply (told_inv cf ticketed).
  - intros evs' xs sid' s' l [(i & Hi & Hr) H]. split.
    + exists i. split; [|done]. apply elem_of_app. by left.
    + intros Hsv Hn. apply H; [done|]. by eapply no_syn_app.
  - intros evs' sid' i s' out Ho.
    assert (Hr : request i = s_request s' ∧ s_ticket s' = s_request s').
    { unfold open_session, begin_connect, blank in Ho.
      destruct i as [t|t k c|t k cid c u|t k us u]; try (destruct (h_store _ !! cid)); try done; by injection Ho as <- <-. }
    destruct Hr as [Hr Ht]. split.
    + exists i. split; [|done]. apply elem_of_app. right. by apply elem_of_list_singleton.
    + intros _ _. split; [done|]. apply Forall_nil_2.
  - intros evs' sid' s0 l i h' s' out ks Ha Hs Hov [(i0 & Hi0 & Hr0) IH].
    assert (Hreq : s_request s' = s_request s0).
    { destruct Ha as [p e x Ho Hvd|p e x err h' s' ks Ho Hvd He|err h' s' ks He| | |]; try done.
      - by apply (outcome_request _ _ _ _ _ _ _ Ho).
      - destruct (ends_ticketed _ _ _ _ _ _ _ He) as (_ & -> & _). by apply (outcome_request _ _ _ _ _ _ _ Ho).
      - by destruct (ends_ticketed _ _ _ _ _ _ _ He) as (_ & -> & _). }
    split.
    { exists i0. rewrite Hreq. split; [|done]. apply elem_of_app. by left. }
    intros Hsv Hn. rewrite (acted_server _ _ _ _ _ _ _ _ _ Ha) in Hsv. rewrite Hreq.
    destruct (IH Hsv (no_syn_app _ _ _ Hn)) as [Ht Hf].
    assert (Hp : ∀ p e, i = Recv p e → match p_body p with Syn _ _ => False | _ => True end) by (intros p e ->; apply (Hn p), received_last).
    destruct Ha as [p e x Ho Hvd|p e x err h' s' ks Ho Hvd He|err h' s' ks He| | |k r a Hst Hc Ha].
    + destruct (outcome_ticketed _ _ _ _ _ _ _ Ho Hsv (Hp _ _ eq_refl)) as [E1 E2]. rewrite Ht in E1, E2. split; [done|]. by apply Forall_app.
    + destruct (outcome_ticketed _ _ _ _ _ _ _ Ho Hsv (Hp _ _ eq_refl)) as [E1 E2]. rewrite Ht in E1, E2.
      destruct (ends_ticketed _ _ _ _ _ _ _ He) as (E3 & E4 & E5). rewrite (outcome_request _ _ _ _ _ _ _ Ho) in E5.
      split; [congruence|]. by rewrite !Forall_app.
    + destruct (ends_ticketed _ _ _ _ _ _ _ He) as (E3 & E4 & E5). split; [congruence|]. by apply Forall_app.
    + split; [done|]. by rewrite app_nil_r.
    + split; [done|]. by rewrite app_nil_r.
    + split; [done|]. by rewrite app_nil_r.
Qed.

(** * Who takes a session off the list *)

Lemma outcome_off cf evs sid s p e x c sid' :
  outcome cf sid (n_shared (the_node cf evs)) s p e x → n_sess (the_node cf evs) !! sid = Some s →
  online (the_node cf evs) c sid' → h_online (x_shared x) !! c ≠ Some sid' →
  sid ≠ sid' ∧ (s_server s = true → authenticated cf (evs ++ [In sid (Recv p e)]) sid c).
Proof.
  intros Ho Hs Hon Hoff. unfold online in Hon.
  assert (Hsame : h_online (x_shared x) = h_online (n_shared (the_node cf evs)) → sid ≠ sid' ∧ (s_server s = true → authenticated cf (evs ++ [In sid (Recv p e)]) sid c)).
  { intros E. rewrite E in Hoff. done. }
  assert (Hins : ∀ r, h_online (x_shared x) = <[r_cid r := sid]> (h_online (n_shared (the_node cf evs))) → sid ≠ sid' ∧ r_cid r = c).
  { intros r E. rewrite E in Hoff. destruct (decide (r_cid r = c)) as [<-|Hne].
    - rewrite lookup_insert in Hoff. split; [congruence|done].
    - rewrite lookup_insert_ne in Hoff by done. done. }
  assert (Hauth : ∀ r a, keyed s p r → (provisional s = true ∨ o_stage (s_con s) = CSuccess) → s_cnac s = Some a →
      p_body p = ConStage0 (Some (a_creds a)) → o_stage (s_con s) ≠ CSuccess → s_server s = true → authenticated cf (evs ++ [In sid (Recv p e)]) sid (r_cid r)).
  { intros r a Hkd Hpv Ha Hb Hns Hsv. destruct (srv_holds cf evs sid s Hs Hsv) as [Hv _].
    assert (Hm : q_made (s_pre s) = Some r) by by eapply keyed_made.
    destruct (v_made _ _ _ _ Hv r Hm) as (a' & Ha' & Hc & Hd). rewrite Ha in Ha'. injection Ha' as <-.
    destruct Hkd as [_ Hkd]. by exists evs, p, e, [], (r_key r), a. }
  destruct Ho; cbn [x_shared] in *; try (by apply Hsame).
  - destruct (Hins r eq_refl) as [Hne0 <-]. split; [done|]. by eapply Hauth.
  - destruct (Hins r eq_refl) as [Hne0 <-]. split; [done|]. by eapply Hauth.
  - destruct (Hins r eq_refl) as [Hne0 <-]. split; [done|]. intros Hsv. exfalso.
    destruct (srv_holds cf evs sid s Hs Hsv) as [Hv _]. by apply (v_stage _ _ _ _ Hv).
  - apply Hsame. match goal with Hd : delete_client _ _ _ = _, Hs : dc_signal _ _ _ = _ |- _ =>
      apply dc_signalled, signalled_shared in Hs as [_ ->]; apply delete_client_cases in Hd; by destruct Hd as [(_ & _ & -> & _)|(_ & -> & _)] end.
  - apply Hsame. match goal with Hd : delete_client _ _ _ = _, Hs : dc_signal _ _ _ = _ |- _ =>
      apply dc_signalled, signalled_shared in Hs as [_ ->]; apply delete_client_cases in Hd; by destruct Hd as [(_ & _ & -> & _)|(_ & -> & _)] end.
Qed.

Lemma ends_off sid err h s h' s' ks c sid' : ends sid err h s h' s' ks → h_online h' !! c ≠ Some sid' →
  h_online h !! c ≠ Some sid' ∨ sid = sid'.
Proof.
  intros (_ & _ & E & _). rewrite E. unfold online_after.
  destruct (s_cid s) as [c'|]; [|by left]. case_bool_decide as Hd; [|by left]. intros Hne.
  destruct (decide (c' = c)) as [->|Hc]; [|rewrite lookup_delete_ne in Hne by done; by left].
  destruct (decide (sid = sid')) as [->|Hs]; [by right|]. left. congruence.
Qed.

Lemma displaced cf evs ev c sid' : online (the_node cf evs) c sid' → ¬ online (the_node cf (evs ++ [ev])) c sid' →
  (∃ i, ev = In sid' i ∧ ended (the_node cf (evs ++ [ev])) sid') ∨
  (∃ sid i, ev = In sid i ∧ sid ≠ sid' ∧ (as_server (the_node cf (evs ++ [ev])) sid → authenticated cf (evs ++ [ev]) sid c)).
Proof.
  intros Hon Hoff. rewrite node_snoc in *.
  destruct (step_stepped cf (the_node cf evs) ev) as [ev|sid0 i s out Hn Ho|sid0 s i h' s' out ks Hn Ho Ha]; [done|done|].
  assert (Hsv : as_server (mk_node h' (<[sid0:=s']> (n_sess (the_node cf evs))) (n_log (the_node cf evs) ++ map (pair sid0) ks)) sid0 → s_server s = true).
  { intros (s1 & Hs1 & Hsv). cbn [n_sess] in Hs1. rewrite lookup_insert in Hs1. injection Hs1 as <-.
    by rewrite (acted_server _ _ _ _ _ _ _ _ _ Ha) in Hsv. }
  assert (Hend : s_over s' = true → ended (mk_node h' (<[sid0:=s']> (n_sess (the_node cf evs))) (n_log (the_node cf evs) ++ map (pair sid0) ks)) sid0).
  { intros H. exists s'. cbn [n_sess]. by rewrite lookup_insert. }
  unfold online in Hoff at 1. cbn [n_shared] in Hoff.
  destruct Ha as [p e x Hx Hvd|p e x err h' s' ks Hx Hvd He|err h' s' ks He| | |].
  - right. exists sid0, (Recv p e). split; [done|]. destruct (outcome_off _ _ _ _ _ _ _ _ _ Hx Hn Hon Hoff) as [H1 H2]. split; [done|]. auto.
  - destruct (decide (sid0 = sid')) as [->|Hne].
    + left. exists (Recv p e). split; [done|]. apply Hend. by destruct He as (-> & _).
    + right. exists sid0, (Recv p e). split; [done|]. split; [done|]. intros Hs0.
      destruct (ends_off _ _ _ _ _ _ _ _ _ He Hoff) as [H|H]; [|done].
      destruct (outcome_off _ _ _ _ _ _ _ _ _ Hx Hn Hon H) as [_ H2]. auto.
  - destruct (ends_off _ _ _ _ _ _ _ _ _ He Hoff) as [H|H]; [done|]. subst sid0.
    left. eexists. split; [done|]. apply Hend. by destruct He as (-> & _).
  - done.
  - done.
  - done.
Qed.
