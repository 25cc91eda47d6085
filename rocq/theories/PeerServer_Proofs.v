From Coq Require Import ZifyBool ZifyNat ZifyN.
From stdpp Require Import prelude gmap.
From Verif Require Import Postings_Model Postings_Proofs PeerServer_Model PeerServer_Spec.
Local Open Scope N_scope.

#[local] Instance psig_dec : EqDecision psig.
Proof. solve_decision. Defined.

Lemma pending_at s o t k : pending s o t k ↔ ∃ p, at_ (pv_layer s) o t = Some p ∧ po_sig p = k.
Proof.
  unfold pending, at_. split.
  - intros (m & p & -> & H1 & H2). eauto.
  - intros (p & H1 & H2). destruct (ly_map (pv_layer s) !! o) as [m|]; [|done]. eauto.
Qed.
Lemma find_spec {S} (l : layer S) c f t : ly_find l c f = Some t → ∃ p, at_ l c t = Some p ∧ f (po_sig p) = true.
Proof. intros H. apply (stale_spec l c f t). unfold ly_find, stale in *. destruct (ly_map l !! c); [|done]. destruct (map_to_list _).*1 eqn:E; [done|]. cbn in H. injection H as ->. set_solver. Qed.
Lemma find_none {S} (l : layer S) c f t p : ly_find l c f = None → at_ l c t = Some p → f (po_sig p) = false.
Proof.
  intros H Ha. destruct (f (po_sig p)) eqn:Ef; [|done]. assert (Ht : t ∈ stale l c f) by (apply stale_spec; eauto).
  unfold ly_find, stale in *. destruct (ly_map l !! c); [|by apply elem_of_nil in Ht]. destruct (map_to_list _).*1; [by apply elem_of_nil in Ht|done].
Qed.

(** what holds of every posting, whoever sent the request *)
Definition shape (o : N) (k : kept) : Prop :=
  match k with
  | (SRegister cn None, Some _) | (SConnect cn None, Some _) => cn.1 = o ∧ cn.2 ≠ o
  | (SDereg cn, None) => cn.1 = o
  | _ => False
  end.
Record sound (s : pserver) : Prop := mk_sound {
  so_keyed : keyed (pv_layer s);
  so_shape : ∀ o t p, at_ (pv_layer s) o t = Some p → shape o (po_sig p);
  so_session : ∀ o m, ly_map (pv_layer s) !! o = Some m → o ∈ pv_sessions s;
  so_layer : ∀ c, c ∈ pv_sessions s → is_Some (ly_map (pv_layer s) !! c);
  so_sym : ∀ a b, (a, b) ∈ pv_peers s → (b, a) ∈ pv_peers s ∧ a ≠ b ∧ a ∈ pv_accounts s ∧ b ∈ pv_accounts s;
  so_known : ∀ c, c ∈ pv_sessions s → c ∈ pv_accounts s }.

Lemma sound_init acc : sound (pserver_init acc).
Proof. split; [apply keyed_init| | | | |]; intros *; cbn; by rewrite ?lookup_empty. Qed.

(** which accounts have a map of postings *)
Lemma dom_insert {S} (l : layer S) c t d x o : is_Some (ly_map (ly_insert l c t d x) !! o) ↔ is_Some (ly_map l !! o).
Proof.
  unfold ly_insert. destruct (ly_map l !! c) as [m|] eqn:E; [|done]. cbn. destruct (decide (c = o)) as [-> |Hn].
  - by rewrite lookup_insert, E.
  - by rewrite lookup_insert_ne.
Qed.
Lemma dom_take {S} (l l' : layer S) c t p o : take_posting l c t = Some (l', p) → is_Some (ly_map l' !! o) ↔ is_Some (ly_map l !! o).
Proof.
  unfold take_posting. destruct (ly_map l !! c) as [m|] eqn:E; [|done]. destruct (m !! t); [|done]. intros [= <- <-]. cbn.
  destruct (decide (c = o)) as [-> |Hn]; [by rewrite lookup_insert, E|by rewrite lookup_insert_ne].
Qed.
Lemma dom_remove {S} (l l' : layer S) c t r o : ly_remove l c t = Some (l', r) → is_Some (ly_map l' !! o) ↔ is_Some (ly_map l !! o).
Proof.
  unfold ly_remove. destruct (take_posting l c t) as [[l1 p]|] eqn:E; [|by intros [= <- <-]].
  unfold drop_delay. destruct (ly_delays l1 !! po_key p); [|done]. intros [= <- <-]. cbn. by apply (dom_take l l1 c t p).
Qed.
Lemma dom_purge {S} (l l' : layer S) c f os o : ly_purge l c f = Some (l', os) → is_Some (ly_map l' !! o) ↔ is_Some (ly_map l !! o).
Proof.
  unfold ly_purge. generalize (stale l c f) as ts. intros ts. revert l l' os. induction ts as [|t ts IH]; intros l l' os; cbn.
  - by intros [= <- <-].
  - destruct (ly_remove l c t) as [[l1 r]|] eqn:E; [|done]. destruct (purge_list l1 c ts) as [[l2 os2]|] eqn:E2; [|done].
    intros [= <- <-]. rewrite (IH _ _ _ E2). by apply (dom_remove l l1 c t r).
Qed.
Lemma dom_expire {S} (l l' : layer S) k r o : ly_expire l k = (l', r) → is_Some (ly_map l' !! o) ↔ is_Some (ly_map l !! o).
Proof.
  unfold ly_expire. destruct (ly_delays l !! k) as [e|]; [|by intros [= <- <-]]. destruct (de_due e <=? ly_now l); [|by intros [= <- <-]].
  destruct (take_posting _ _ _) as [[l2 p]|] eqn:E; intros [= <- <-]; [|done]. by rewrite (dom_take _ _ _ _ _ o E).
Qed.

(** a change of the postings alone *)
Lemma sound_layer s l :
  sound s → keyed l → (∀ o t p, at_ l o t = Some p → shape o (po_sig p)) →
  (∀ o, is_Some (ly_map l !! o) ↔ is_Some (ly_map (pv_layer s) !! o)) → sound (with_layer s l).
Proof.
  intros [H1 H2 H3 H4 H5 H6] K Sh D. split; cbn; auto.
  - intros o m Hm. destruct (proj1 (D o) (ex_intro _ m Hm)) as [m' Hm']. by apply (H3 o m').
  - intros c Hc. apply D. by apply H4.
Qed.

Lemma sound_peers s p :
  sound s → (∀ a b, (a, b) ∈ p → (b, a) ∈ p ∧ a ≠ b ∧ a ∈ pv_accounts s ∧ b ∈ pv_accounts s) → sound (with_peers s p).
Proof. intros [H1 H2 H3 H4 H5 H6] H. by split. Qed.
Lemma sound_vconns s v : sound s → sound (with_vconns s v).
Proof. intros [H1 H2 H3 H4 H5 H6]. by split. Qed.
Lemma sound_mapped s v : sound s → sound (with_mapped s v).
Proof. intros [H1 H2 H3 H4 H5 H6]. by split. Qed.
Lemma sound_less s l :
  sound s → keyed l → (∀ o t p, at_ l o t = Some p → at_ (pv_layer s) o t = Some p) →
  (∀ o, is_Some (ly_map l !! o) ↔ is_Some (ly_map (pv_layer s) !! o)) → sound (with_layer s l).
Proof. intros HS K A D. apply sound_layer; auto. intros o t p Hp. by eapply so_shape; [|apply A]. Qed.
Lemma sound_insert s o tk d k : sound s → shape o k → sound (with_layer s (ly_insert (pv_layer s) o tk d k)).
Proof.
  intros HS Hk. apply sound_layer; [done|apply keyed_insert, HS| |intros; apply dom_insert].
  intros o' t p. rewrite at_insert. case_bool_decide as Hb; [|by apply HS]. destruct Hb as (-> & -> & _). intros [= <-]. done.
Qed.
Lemma sound_register s a b s' es : sound s → register_p2p s a b = (s', es) → sound s'.
Proof.
  intros HS. unfold register_p2p. case_bool_decide as Hb; [|by intros [= <- <-]]. destruct Hb as [Ha Hb].
  destruct (N.eqb_spec a b) as [-> |Hn]; intros [= <- <-]; [done|]. apply sound_peers; [done|].
  intros x y. rewrite !elem_of_union, !elem_of_singleton. intros [[[= -> ->]|[= -> ->]]|H]; [by auto 6..|].
  destruct (so_sym s HS _ _ H) as (H1 & H2). auto 6.
Qed.
Lemma dereg_some s a b s' : deregister_p2p s a b = Some s' → (a, b) ∈ pv_peers s ∧ s' = with_peers s (pv_peers s ∖ {[(a, b); (b, a)]}).
Proof. unfold deregister_p2p. case_bool_decide as Hb; [|done]. intros [= <-]. by destruct Hb as (_ & _ & ?). Qed.
Lemma sound_deregister s a b s' : sound s → deregister_p2p s a b = Some s' → sound s'.
Proof.
  intros HS. unfold deregister_p2p. case_bool_decide as Hb; [|done]. intros [= <-]. apply sound_peers; [done|].
  intros x y. rewrite !elem_of_difference, !elem_of_union, !elem_of_singleton. intros [H Hn]. destruct (so_sym s HS _ _ H) as (H1 & H2).
  split; [split; [done|]|done]. intros [[= -> ->]|[= -> ->]]; apply Hn; auto.
Qed.

(** an answer: either there is nothing to answer, or the posting goes and the signal is sent *)
Lemma response_spec s c target tk sg fin :
  sound s →
  (at_ (pv_layer s) target tk = None ∧ route_response s c target tk sg fin = Some (s, [], [PSent c tk (SError (c, target))])) ∨
  ∃ p l, at_ (pv_layer s) target tk = Some p ∧ sound (with_layer s l) ∧ target ∈ pv_sessions s ∧
    (∀ o t, at_ l o t = if bool_decide (o = target ∧ t = tk) then None else at_ (pv_layer s) o t) ∧
    route_response s c target tk sg fin =
      (let '(s2, es) := fin (with_layer s l) in Some (s2, PSent target tk sg :: es, [PSent c tk SReceived])).
Proof.
  intros HS. pose proof (remove_spec (pv_layer s) target tk (so_keyed s HS)) as HR. unfold route_response.
  destruct (at_ (pv_layer s) target tk) as [p|] eqn:Ea.
  - right. destruct HR as (l & E & K & _ & _ & A). exists p, l. rewrite E.
    assert (Ht : target ∈ pv_sessions s).
    { unfold at_ in Ea. destruct (ly_map (pv_layer s) !! target) as [m|] eqn:Em; [|done]. by eapply so_session. }
    rewrite bool_decide_true by done. split_and!; try done. apply sound_less; [done|done| |].
    + intros o t q. rewrite A. by case_bool_decide.
    + intros o. by apply (dom_remove _ _ _ _ _ o E).
  - left. by rewrite HR.
Qed.
Lemma sound_answer_register s c cn r tk h t :
  sound s → ∃ s' es rep, answer_register s c cn r tk h t = Some (s', es, rep) ∧ sound s'.
Proof.
  intros HS. unfold answer_register. destruct (response_spec s c t tk (SRegister cn (Some r)) (λ s1, if r then register_p2p s1 h t else (s1, [])) HS) as [[_ ->]|(p & l & Ha & Hl & Ht & A & ->)]; [by eauto|].
  destruct r; [|by eauto 6]. destruct (register_p2p _ h t) as [s2 es2] eqn:E. eexists _, _, _. split; [done|]. by eapply sound_register.
Qed.
Lemma sound_answer_connect s c cn r tk h t :
  sound s → ∃ s' es rep, answer_connect s c cn r tk h t = Some (s', es, rep) ∧ sound s'.
Proof.
  intros HS. unfold answer_connect. match goal with |- context [route_response _ _ _ _ _ ?f] => set (fin := f) end.
  destruct (response_spec s c t tk (SConnect cn (Some r)) fin HS) as [[_ ->]|(p & l & Ha & Hl & Ht & A & ->)]; [by eauto|].
  unfold fin. destruct (c =? t); [by eauto 6|]. eexists _, _, _. split; [done|]. by apply sound_vconns.
Qed.
Lemma sound_route s c o t tk sg s' es :
  sound s → shape o (sg, Some c) ∨ o = t → route_signal s c o t tk sg = (s', es) → sound s'.
Proof.
  intros HS Hs. unfold route_signal. destruct (N.eqb_spec o t) as [-> |Hn]; [by intros [= <- <-]|].
  destruct Hs as [Hs|]; [|done]. case_bool_decide; [|by intros [= <- <-]]. case_bool_decide; intros [= <- <-]; by apply sound_insert.
Qed.
Lemma sound_purge s o f l os : sound s → ly_purge (pv_layer s) o f = Some (l, os) → sound (with_layer s l).
Proof.
  intros HS E. destruct (purge_spec (pv_layer s) o f (so_keyed s HS)) as (l' & os' & E' & K & _ & _ & A & _).
  rewrite E in E'. injection E' as <- <-. apply sound_less; [done|done| |].
  - intros o' t p. rewrite A. by case_bool_decide.
  - intros o'. by apply (dom_purge _ _ _ _ _ o' E).
Qed.

(** the server never panics on a request, and stays sound *)
Lemma sound_handle s c h tk q : sound s → ∃ s' es, phandle s c h tk q = Some (s', es) ∧ sound s'.
Proof.
  intros HS. destruct q as [[x t] r|[x t] r|[x t]|[x t]|a|[x t] y]; cbn [phandle].
  - destruct r as [r|].
    + destruct (sound_answer_register s c (x, t) r tk h t HS) as (s' & es & rep & -> & H). eauto.
    + destruct (ly_find (pv_layer s) t (seeks_register h)) as [tk'|] eqn:Ef.
      * destruct (sound_answer_register (with_mapped s (<[(h, tk') := tk]> (pv_mapped s))) c (h, t) true tk' h t) as (s' & es & rep & -> & H); [by apply sound_mapped|]. eauto.
      * destruct (route_signal s c h t tk (SRegister (h, t) None)) as [s' es] eqn:E. eexists _, _. split; [done|].
        eapply sound_route; [exact HS| |exact E]. destruct (decide (h = t)) as [->|]; [by right|]. left. cbn. split; [done|]. by intros ->.
  - destruct r as [r|].
    + destruct (sound_answer_connect s c (x, t) r tk x t HS) as (s' & es & rep & -> & H). eauto.
    + destruct (ly_find (pv_layer s) t (seeks_connect x)) as [tk'|] eqn:Ef.
      * destruct (sound_answer_connect (with_mapped s (<[(x, tk') := tk]> (pv_mapped s))) c (x, t) true tk' x t) as (s' & es & rep & -> & H); [by apply sound_mapped|]. eauto.
      * destruct (route_signal s c x t tk (SConnect (x, t) None)) as [s' es] eqn:E. eexists _, _. split; [done|].
        eapply sound_route; [exact HS| |exact E]. destruct (decide (x = t)) as [->|]; [by right|]. left. cbn. split; [done|]. by intros ->.
  - destruct (ly_find (pv_layer s) t (seeks_dereg x)); [by eauto|].
    destruct (deregister_p2p s x t) as [s1|] eqn:E; [|by eauto]. eexists _, _. split; [done|]. apply sound_insert; [by eapply sound_deregister|done].
  - destruct (purge_spec (pv_layer s) x (between x t) (so_keyed s HS)) as (l1 & os1 & E1 & _). rewrite E1.
    pose proof (sound_purge _ _ _ _ _ HS E1) as S1. destruct (purge_spec l1 t (between x t) (so_keyed _ S1)) as (l2 & os2 & E2 & _). rewrite E2.
    assert (S2 : sound (with_layer s l2)) by exact (sound_purge (with_layer s l1) _ _ _ _ S1 E2).
    cbv zeta. destruct (pv_vconns (with_layer s l2) !! (c, t)); [|by eauto].
    destruct ((x =? t) || _); [eexists _, _; split; [done|by apply sound_vconns]|].
    destruct (pv_vconns (with_vconns _ _) !! (t, x)); eexists _, _; (split; [done|]); repeat apply sound_vconns; done.
  - eauto.
  - destruct (c =? t); [by eauto|]. case_bool_decide; eauto.
Qed.
Lemma sound_step s e : sound s → ∃ s' es, pstep s e = Some (s', es) ∧ sound s'.
Proof.
  intros HS. destruct e as [c h tk q|c t x|c|c|d|k]; cbn [pstep].
  - case_bool_decide; [by apply sound_handle|eauto].
  - case_bool_decide; eauto.
  - case_bool_decide as Hacc; [by eauto|]. eexists _, _. split; [done|]. destruct HS as [H1 H2 H3 H4 H5 H6]. split; cbn; auto.
    + destruct (step_keyed (pv_layer s) (LRegister c) H1) as (l' & os & [= <- <-] & K). done.
    + intros o t p. rewrite at_register. by apply H2.
    + intros o m. unfold ly_register. destruct (ly_map (pv_layer s) !! c) eqn:E; cbn.
      * intros Hm%H3. set_solver.
      * destruct (decide (o = c)) as [-> |Hn]; [set_solver|]. rewrite lookup_insert_ne by done. intros Hm%H3. set_solver.
    + intros o [->%elem_of_singleton|Ho]%elem_of_union; unfold ly_register; destruct (ly_map (pv_layer s) !! c) eqn:E; cbn; [by eauto|by rewrite lookup_insert|by apply H4|].
      destruct (decide (o = c)) as [-> |Hn]; [by rewrite lookup_insert|rewrite lookup_insert_ne by done; by apply H4].
    + intros o [->%elem_of_singleton|Ho]%elem_of_union; auto.
  - eexists _, _. split; [done|]. destruct HS as [H1 H2 H3 H4 H5 H6]. split; cbn; auto.
    + destruct (step_keyed (pv_layer s) (LShutdown c) H1) as (l' & os & [= <- <-] & K). done.
    + intros o t p. rewrite at_shutdown. case_bool_decide; [done|]. by apply H2.
    + intros o m. unfold ly_shutdown. cbn. intros [Hn Hm]%lookup_delete_Some. apply H3 in Hm. set_solver.
    + intros o [Ho Hn]%elem_of_difference. rewrite lookup_delete_ne by set_solver. by apply H4.
    + intros o [Ho _]%elem_of_difference. auto.
  - eexists _, _. split; [done|]. destruct HS as [H1 H2 H3 H4 H5 H6]. split; cbn; auto.
    destruct H1 as [K1 K2]. split; [exact K1|exact K2].
  - destruct (ly_expire (pv_layer s) k) as [l o] eqn:E. eexists _, _. split; [done|].
    destruct (expire_spec _ _ _ _ (so_keyed s HS) E) as (K & _ & _ & HO). apply sound_less; [done|done| |].
    + destruct o as [y|]; [|by intros o t p; rewrite HO]. destruct HO as (e & p & _ & _ & _ & _ & _ & A). intros o t q. rewrite A. by case_bool_decide.
    + intros o'. by apply (dom_expire _ _ _ _ o' E).
Qed.
Lemma sound_run es s : sound s → ∃ s' x, prun s es = Some (s', x) ∧ sound s'.
Proof.
  revert s. induction es as [|e es IH]; intros s HS; cbn; [eauto|]. destruct (sound_step s e HS) as (s1 & x1 & -> & H1).
  destruct (IH s1 H1) as (s2 & x2 & -> & H2). eauto.
Qed.

(** *** Clients that name themselves and answer only what they were asked *)
Lemma wants_mono es e a b : wants_register es a b → wants_register (es ++ [e]) a b.
Proof. intros (h & tk & x & r & H & Hr). exists h, tk, x, r. split; [apply elem_of_app; by left|done]. Qed.
Lemma spoke_mono es e a b : spoke_of_connecting es a b → spoke_of_connecting (es ++ [e]) a b.
Proof. intros (h & tk & x & r & H). exists h, tk, x, r. apply elem_of_app; by left. Qed.

Definition reason (es : list pevent) (o : N) (k : kept) : Prop :=
  match k with
  | (SRegister cn _, to) => wants_register es o cn.2 ∧ to = Some o
  | (SConnect cn _, to) => spoke_of_connecting es o cn.2 ∧ to = Some o
  | _ => True
  end.
Record honest (es : list pevent) (seen : list peffect) (s : pserver) : Prop := mk_honest {
  ho_sound : sound s;
  ho_reason : ∀ o t p, at_ (pv_layer s) o t = Some p → reason es o (po_sig p);
  ho_got_reg : ∀ c t, got seen c (SRegister (t, c) None) → wants_register es t c ∧ t ≠ c;
  ho_got_con : ∀ c t, got seen c (SConnect (t, c) None) → spoke_of_connecting es t c ∧ t ≠ c;
  ho_peers : ∀ a b, (a, b) ∈ pv_peers s → wants_register es a b ∧ wants_register es b a;
  ho_vconns : ∀ a b v, pv_vconns s !! (a, b) = Some v →
    vc_label v = (a, b) ∧ vc_dest v = b ∧ spoke_of_connecting es a b ∧ spoke_of_connecting es b a;
  ho_stuck : ∀ x, x ∈ seen → stuck x = false }.

Lemma honest_init acc : honest [] [] (pserver_init acc).
Proof.
  split; [apply sound_init|..]; intros *; cbn; rewrite ?lookup_empty; try done.
  - intros [[tk H]|H]; by apply elem_of_nil in H.
  - intros [[tk H]|H]; by apply elem_of_nil in H.
  - intros H. by apply elem_of_nil in H.
Qed.
Lemma honest_mono es e seen s : honest es seen s → honest (es ++ [e]) seen s.
Proof.
  intros [H1 H2 H3 H4 H5 H6 H7]. split; try done.
  - intros o t p Hp. apply H2 in Hp. destruct (po_sig p) as [[] ]; cbn in *; try done; destruct Hp; split; eauto using wants_mono, spoke_mono.
  - intros c t [? ?]%H3. eauto using wants_mono.
  - intros c t [? ?]%H4. eauto using spoke_mono.
  - intros a b [? ?]%H5. eauto using wants_mono.
  - intros a b v (? & ? & ? & ?)%H6. eauto 6 using spoke_mono.
Qed.
(** effects that are no request to anyone *)
Definition harmless (x : peffect) : Prop :=
  match x with
  | PSent to _ (SRegister cn None) | PSent to _ (SConnect cn None) | PMailed to (SRegister cn None) | PMailed to (SConnect cn None) => cn.2 ≠ to
  | PStuck _ => False
  | _ => True
  end.
Lemma honest_seen es seen s x : honest es seen s → Forall harmless x → honest es (seen ++ x) s.
Proof.
  intros [H1 H2 H3 H4 H5 H6 H7] Hx. rewrite Forall_forall in Hx. split; try done.
  - intros c t [[tk [H|H]%elem_of_app]|[H|H]%elem_of_app]; [by apply H3; left; eauto|by apply Hx in H|by apply H3; right|by apply Hx in H].
  - intros c t [[tk [H|H]%elem_of_app]|[H|H]%elem_of_app]; [by apply H4; left; eauto|by apply Hx in H|by apply H4; right|by apply Hx in H].
  - intros y [H|H]%elem_of_app; [by apply H7|]. apply Hx in H. by destruct y.
Qed.
Lemma honest_less es seen s l :
  honest es seen s → sound (with_layer s l) → (∀ o t p, at_ l o t = Some p → at_ (pv_layer s) o t = Some p) → honest es seen (with_layer s l).
Proof. intros [H1 H2 H3 H4 H5 H6 H7] HS A. split; try done. intros o t p Hp. by eapply H2, A. Qed.
Lemma honest_mapped es seen s m : honest es seen s → honest es seen (with_mapped s m).
Proof. intros [H1 H2 H3 H4 H5 H6 H7]. split; try done. by apply sound_mapped. Qed.
Lemma honest_insert es seen s o tk d k :
  honest es seen s → shape o k → reason es o k → honest es seen (with_layer s (ly_insert (pv_layer s) o tk d k)).
Proof.
  intros [H1 H2 H3 H4 H5 H6 H7] Hs Hr. split; try done.
  - by apply sound_insert.
  - intros o' t p. cbn. rewrite at_insert. case_bool_decide as Hb; [|by apply H2]. destruct Hb as (-> & -> & _). by intros [= <-].
Qed.
Lemma honest_register es seen s a b s' x :
  honest es seen s → wants_register es a b → wants_register es b a → a ≠ b → register_p2p s a b = (s', x) →
  honest es seen s' ∧ x = [].
Proof.
  intros HH Ha Hb Hn E. pose proof (sound_register _ _ _ _ _ (ho_sound _ _ _ HH) E) as HS. unfold register_p2p in E.
  case_bool_decide; [|by injection E as <- <-]. destruct (N.eqb_spec a b); [done|]. injection E as <- <-. split; [|done].
  destruct HH as [H1 H2 H3 H4 H5 H6 H7]. split; try done. intros x y. cbn. rewrite !elem_of_union, !elem_of_singleton.
  intros [[[= -> ->]|[= -> ->]]|H']; [done..|by apply H5].
Qed.
Lemma honest_deregister es seen s a b s' : honest es seen s → deregister_p2p s a b = Some s' → honest es seen s'.
Proof.
  intros HH E. pose proof (sound_deregister _ _ _ _ (ho_sound _ _ _ HH) E) as HS. unfold deregister_p2p in E. case_bool_decide; [|done].
  injection E as <-. destruct HH as [H1 H2 H3 H4 H5 H6 H7]. split; try done. intros x y. cbn. intros [H' _]%elem_of_difference. by apply H5.
Qed.
Lemma honest_vconns es seen s v :
  honest es seen s →
  (∀ a b x, v !! (a, b) = Some x → vc_label x = (a, b) ∧ vc_dest x = b ∧ spoke_of_connecting es a b ∧ spoke_of_connecting es b a) →
  honest es seen (with_vconns s v).
Proof. intros [H1 H2 H3 H4 H5 H6 H7] Hv. split; try done. by apply sound_vconns. Qed.
Lemma honest_inactive es seen s k : honest es seen s → honest es seen (with_vconns s (set_inactive (pv_vconns s) k)).
Proof.
  intros HH. apply honest_vconns; [done|]. intros a b x. unfold set_inactive. destruct (pv_vconns s !! k) as [y|] eqn:E; [|by apply HH].
  destruct (decide (k = (a, b))) as [-> |Hn].
  - rewrite lookup_insert. intros [= <-]. cbn. exact (ho_vconns _ _ _ HH _ _ _ E).
  - rewrite lookup_insert_ne by done. by apply HH.
Qed.

Lemma honest_answer_register es seen s c cn r tk t :
  honest es seen s → cn.1 = c → (r = true → wants_register es c t ∧ wants_register es t c ∧ c ≠ t) →
  ∃ s' x rep, answer_register s c cn r tk c t = Some (s', x, rep) ∧ honest es seen s' ∧ Forall harmless (x ++ rep).
Proof.
  intros HH Hc Hr. unfold answer_register.
  destruct (response_spec s c t tk (SRegister cn (Some r)) (λ s1, if r then register_p2p s1 c t else (s1, [])) (ho_sound _ _ _ HH)) as [[_ ->]|(p & l & Ha & Hl & Ht & A & ->)].
  { eexists _, _, _. split; [done|]. split; [done|]. by repeat constructor. }
  assert (HL : honest es seen (with_layer s l)). { apply honest_less; [done|done|]. intros o t' q. rewrite A. by case_bool_decide. }
  destruct r.
  - destruct (register_p2p (with_layer s l) c t) as [s2 es2] eqn:E. destruct (Hr eq_refl) as (W1 & W2 & Hn).
    destruct (honest_register _ _ _ _ _ _ _ HL W1 W2 Hn E) as [H2 ->]. eexists _, _, _. split; [done|]. split; [done|]. by repeat constructor.
  - eexists _, _, _. split; [done|]. split; [done|]. by repeat constructor.
Qed.
Lemma honest_answer_connect es seen s c cn r tk t :
  honest es seen s → cn.1 = c → spoke_of_connecting es c t → spoke_of_connecting es t c → c ≠ t →
  ∃ s' x rep, answer_connect s c cn r tk c t = Some (s', x, rep) ∧ honest es seen s' ∧ Forall harmless (x ++ rep).
Proof.
  intros HH Hc W1 W2 Hn. unfold answer_connect. match goal with |- context [route_response _ _ _ _ _ ?f] => set (fin := f) end.
  destruct (response_spec s c t tk (SConnect cn (Some r)) fin (ho_sound _ _ _ HH)) as [[_ ->]|(p & l & Ha & Hl & Ht & A & ->)].
  { eexists _, _, _. split; [done|]. split; [done|]. by repeat constructor. }
  assert (HL : honest es seen (with_layer s l)). { apply honest_less; [done|done|]. intros o t' q. rewrite A. by case_bool_decide. }
  unfold fin. destruct (N.eqb_spec c t); [done|]. eexists _, _, _. split; [done|]. split; [|by repeat constructor].
  apply honest_vconns; [done|]. intros a b v. destruct (decide ((t, c) = (a, b))) as [[= -> ->]|H1].
  - rewrite lookup_insert. by intros [= <-].
  - rewrite lookup_insert_ne by done. destruct (decide ((c, t) = (a, b))) as [[= -> ->]|H2].
    + rewrite lookup_insert. by intros [= <-].
    + rewrite lookup_insert_ne by done. cbn. by apply HH.
Qed.

Lemma honest_route es seen s c t tk sg s' x :
  honest es seen s → (sg = SRegister (c, t) None ∧ wants_register es c t ∨ sg = SConnect (c, t) None ∧ spoke_of_connecting es c t) →
  route_signal s c c t tk sg = (s', x) → honest es (seen ++ x) s'.
Proof.
  intros HH Hs. unfold route_signal. destruct (N.eqb_spec c t) as [-> |Hn].
  { intros [= <- <-]. apply honest_seen; [done|by repeat constructor]. }
  case_bool_decide; [|intros [= <- <-]; apply honest_seen; [done|by repeat constructor]].
  assert (HI : honest es seen (with_layer s (ly_insert (pv_layer s) c tk timeout (sg, Some c)))).
  { destruct Hs as [[-> W]|[-> W]]; (apply honest_insert; [done|by split; cbn; auto|by split]). }
  assert (HG : ∀ x, (x = PSent t tk sg ∨ x = PMailed t sg) → honest es (seen ++ [x]) (with_layer s (ly_insert (pv_layer s) c tk timeout (sg, Some c)))).
  { clear -HI Hs Hn. intros x Hx. destruct HI as [H1 H2 H3 H4 H5 H6 H7]. split; try done.
    - intros c' t' Hg. destruct (decide (c' = t ∧ SRegister (t', c') None = sg)) as [[-> Hd]|Hd].
      + destruct Hs as [[-> W]|[-> W]]; [|done]. injection Hd as ->. split; [done|done].
      + apply H3. destruct Hg as [[tk' [Hg|Hg%elem_of_list_singleton]%elem_of_app]|[Hg|Hg%elem_of_list_singleton]%elem_of_app]; [left; eauto| |by right|];
          exfalso; apply Hd; destruct Hx as [-> | ->]; inversion Hg; subst; done.
    - intros c' t' Hg. destruct (decide (c' = t ∧ SConnect (t', c') None = sg)) as [[-> Hd]|Hd].
      + destruct Hs as [[-> W]|[-> W]]; [done|]. injection Hd as ->. split; [done|done].
      + apply H4. destruct Hg as [[tk' [Hg|Hg%elem_of_list_singleton]%elem_of_app]|[Hg|Hg%elem_of_list_singleton]%elem_of_app]; [left; eauto| |by right|];
          exfalso; apply Hd; destruct Hx as [-> | ->]; inversion Hg; subst; done.
    - intros y [Hy|Hy%elem_of_list_singleton]%elem_of_app; [by apply H7|]. subst. by destruct Hx as [-> | ->]. }
  case_bool_decide; intros [= <- <-]; apply HG; auto.
Qed.

Lemma honest_handle es seen s c tk q s' x :
  honest es seen s → PReq c c tk q ∈ es → truthful (PReq c c tk q) → asked_before seen (PReq c c tk q) →
  phandle s c c tk q = Some (s', x) → honest es (seen ++ x) s'.
Proof.
  intros HH Hin [_ Ht] Hask. pose proof (ho_sound _ _ _ HH) as HS.
  destruct q as [[y t] r|[y t] r|[y t]|[y t]|a|[y t] z]; cbn [phandle]; cbn in Ht; subst.
  - destruct r as [r|].
    + destruct (honest_answer_register es seen s c (c, t) r tk t HH eq_refl) as (s1 & x1 & rep & -> & H1 & Hx).
      { intros ->. cbn in Hask. destruct (ho_got_reg _ _ _ HH _ _ Hask) as [W Hn]. split; [|split; [done|done]]. exists c, tk, c, (Some true). done. }
      intros [= <- <-]. by apply honest_seen.
    + destruct (ly_find (pv_layer s) t (seeks_register c)) as [tk'|] eqn:Ef.
      * destruct (find_spec _ _ _ _ Ef) as (p & Hp & Hf). pose proof (ho_reason _ _ _ HH _ _ _ Hp) as Hr.
        pose proof (so_shape s HS _ _ _ Hp) as Hsh. unfold seeks_register in Hf.
        destruct (po_sig p) as [[cn [?|]|cn r|cn|cn|l|cn z|cn|] to]; cbn in Hf; try done. apply N.eqb_eq in Hf.
        destruct to; [|done]. destruct Hr as [Hr _]. destruct Hsh as [Hs1 Hs2]. rewrite Hf in Hr, Hs2.
        destruct (honest_answer_register es seen (with_mapped s (<[(c, tk') := tk]> (pv_mapped s))) c (c, t) true tk' t) as (s1 & x1 & rep & -> & H1 & Hx); [by apply honest_mapped|done| |].
        { intros _. split; [|by split]. exists c, tk, c, None. done. }
        intros [= <- <-]. apply Forall_app in Hx as [Hx _]. apply honest_seen; [done|]. apply Forall_app. split; [done|by repeat constructor].
      * destruct (route_signal s c c t tk (SRegister (c, t) None)) as [s1 x1] eqn:E. intros [= <- <-].
        eapply honest_route; [exact HH| |exact E]. left. split; [done|]. exists c, tk, c, None. done.
  - assert (Hme : spoke_of_connecting es c t) by (exists c, tk, c, r; done).
    destruct r as [r|].
    + cbn in Hask. destruct (ho_got_con _ _ _ HH _ _ Hask) as [W Hn].
      destruct (honest_answer_connect es seen s c (c, t) r tk t HH eq_refl) as (s1 & x1 & rep & -> & H1 & Hx); [done|done|done|].
      intros [= <- <-]. by apply honest_seen.
    + destruct (ly_find (pv_layer s) t (seeks_connect c)) as [tk'|] eqn:Ef.
      * destruct (find_spec _ _ _ _ Ef) as (p & Hp & Hf). pose proof (ho_reason _ _ _ HH _ _ _ Hp) as Hr.
        pose proof (so_shape s HS _ _ _ Hp) as Hsh. unfold seeks_connect in Hf.
        destruct (po_sig p) as [[cn r|cn [?|]|cn|cn|l|cn z|cn|] to]; cbn in Hf; try done. apply N.eqb_eq in Hf.
        destruct to; [|done]. destruct Hr as [Hr _]. destruct Hsh as [Hs1 Hs2]. rewrite Hf in Hr, Hs2.
        destruct (honest_answer_connect es seen (with_mapped s (<[(c, tk') := tk]> (pv_mapped s))) c (c, t) true tk' t) as (s1 & x1 & rep & -> & H1 & Hx); [by apply honest_mapped|done|done|done|done|].
        intros [= <- <-]. apply Forall_app in Hx as [Hx _]. by apply honest_seen.
      * destruct (route_signal s c c t tk (SConnect (c, t) None)) as [s1 x1] eqn:E. intros [= <- <-].
        eapply honest_route; [exact HH| |exact E]. by right.
  - destruct (ly_find (pv_layer s) t (seeks_dereg c)).
    + intros [= <- <-]. apply honest_seen; [done|]. case_bool_decide; by repeat constructor.
    + destruct (deregister_p2p s c t) as [s1|] eqn:E; intros [= <- <-].
      * apply honest_seen; [|case_bool_decide; by repeat constructor]. apply honest_insert; [by eapply honest_deregister|done|done].
      * apply honest_seen; [done|by repeat constructor].
  - destruct (purge_spec (pv_layer s) c (between c t) (so_keyed s HS)) as (l1 & os1 & E1 & _ & _ & _ & A1 & _). rewrite E1.
    pose proof (sound_purge _ _ _ _ _ HS E1) as S1. destruct (purge_spec l1 t (between c t) (so_keyed _ S1)) as (l2 & os2 & E2 & _ & _ & _ & A2 & _). rewrite E2.
    assert (S2 : sound (with_layer s l2)) by exact (sound_purge (with_layer s l1) _ _ _ _ S1 E2).
    assert (H2 : honest es seen (with_layer s l2)).
    { apply honest_less; [done|done|]. intros o t' p. rewrite A2. case_bool_decide; [done|]. rewrite A1. by case_bool_decide. }
    cbv zeta. destruct (pv_vconns (with_layer s l2) !! (c, t)); [|intros [= <- <-]; apply honest_seen; [done|by repeat constructor]].
    pose proof (honest_inactive _ _ _ (c, t) H2) as H3.
    destruct ((c =? t) || _); [intros [= <- <-]; apply honest_seen; [done|by repeat constructor]|].
    destruct (pv_vconns (with_vconns _ _) !! (t, c)); intros [= <- <-]; (apply honest_seen; [|by repeat constructor]); [|done].
    exact (honest_inactive _ _ _ (t, c) H3).
  - intros [= <- <-]. apply honest_seen; [done|by repeat constructor].
  - destruct (c =? t); [intros [= <- <-]; by rewrite app_nil_r|]. case_bool_decide; intros [= <- <-]; (apply honest_seen; [done|by repeat constructor]).
Qed.
Lemma honest_step es seen s e s' x :
  honest es seen s → truthful e → asked_before seen e → pstep s e = Some (s', x) → honest (es ++ [e]) (seen ++ x) s'.
Proof.
  intros HH Ht Ha E. pose proof (honest_mono _ e _ _ HH) as HM. destruct (sound_step s e (ho_sound _ _ _ HH)) as (s1 & x1 & E1 & S1).
  rewrite E in E1. injection E1 as <- <-. revert E.
  destruct e as [c h tk q|c t y|c|c|d|k]; cbn [pstep].
  - case_bool_decide; [|intros [= <- <-]; by rewrite app_nil_r]. destruct Ht as [-> Ht]. intros E.
    eapply honest_handle; [exact HM| |by split|exact Ha|exact E]. apply elem_of_app. right. by apply elem_of_list_singleton.
  - case_bool_decide; intros [= <- <-]; [|by rewrite app_nil_r]. apply honest_seen; [done|]. destruct (_ !! _); by repeat constructor.
  - case_bool_decide; intros [= <- <-]; rewrite app_nil_r; [done|]. destruct HM as [H1 H2 H3 H4 H5 H6 H7]. split; try done. intros o t p. cbn. rewrite at_register. by apply H2.
  - intros [= <- <-]. rewrite app_nil_r. destruct HM as [H1 H2 H3 H4 H5 H6 H7]. split; try done.
    + intros o t p. cbn. rewrite at_shutdown. case_bool_decide; [done|]. by apply H2.
    + intros a b v. cbn. intros [Hv _]%map_filter_lookup_Some. by apply H6.
  - intros [= <- <-]. rewrite app_nil_r. destruct HM as [H1 H2 H3 H4 H5 H6 H7]. split; try done.
  - destruct (ly_expire (pv_layer s) k) as [l o] eqn:E. intros [= <- <-].
    destruct (expire_spec _ _ _ _ (so_keyed s (ho_sound _ _ _ HH)) E) as (K & _ & _ & HO).
    apply honest_seen.
    + apply honest_less; [done|done|]. destruct o as [z|]; [|by intros o t p; rewrite HO]. destruct HO as (e & p & _ & _ & _ & _ & _ & A). intros o t q. rewrite A. by case_bool_decide.
    + destruct o as [z|]; [|by constructor]. destruct HO as (e & p & _ & _ & _ & Hp & -> & A).
      pose proof (so_shape s (ho_sound _ _ _ HH) _ _ _ Hp) as Hsh. pose proof (ho_reason _ _ _ HH _ _ _ Hp) as Hr.
      destruct (po_sig p) as [[cn [?|]|cn [?|]|cn|cn|l'|cn z|cn|] [to|]]; cbn in Hsh; try done; constructor; [|done| |done]; destruct Hr as [_ [= ->]]; by destruct Hsh.
Qed.
Lemma honest_run es s s' x es0 seen :
  honest es0 seen s → Forall truthful es → polite s seen es → prun s es = Some (s', x) → honest (es0 ++ es) (seen ++ x) s'.
Proof.
  revert s es0 seen x. induction es as [|e es IH]; intros s es0 seen x HH; cbn [prun polite].
  - intros _ _ [= <- <-]. by rewrite !app_nil_r.
  - intros [Ht Hts]%Forall_cons [Ha Hp]. destruct (pstep s e) as [[s1 x1]|] eqn:E; [|done]. destruct (prun s1 es) as [[s2 x2]|] eqn:E2; [|done].
    intros [= <- <-]. pose proof (honest_step _ _ _ _ _ _ HH Ht Ha E) as H1. specialize (IH _ _ _ _ H1 Hts Hp E2).
    rewrite <- !app_assoc in IH. done.
Qed.
