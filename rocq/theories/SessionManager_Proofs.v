(** Proofs about the session manager. *)
From Coq Require Import ZifyBool ZifyNat ZifyN.
From stdpp Require Import prelude gmap.
From Verif Require Import SessionManager_Model SessionManager_Spec.
Local Open Scope N_scope.

Lemma sm_run_app s es1 es2 :
  sm_run s (es1 ++ es2) =
  ((sm_run (sm_run s es1).1 es2).1,
   (sm_run s es1).2 ++ (sm_run (sm_run s es1).1 es2).2).
Proof.
  revert s. induction es1 as [|e es1 IH]; intros s; simpl.
  - by destruct (sm_run s es2).
  - destruct (sm_step s e) as [s1 o] eqn:E.
    specialize (IH s1). destruct (sm_run s1 (es1 ++ es2)) as [a b] eqn:E1.
    destruct (sm_run s1 es1) as [a' b'] eqn:E2. cbn [fst snd] in *.
    by simplify_eq.
Qed.

Lemma calm_app s es1 es2 :
  calm s (es1 ++ es2) ↔ calm s es1 ∧ calm (sm_run s es1).1 es2.
Proof.
  revert s. induction es1 as [|e es1 IH]; intros s; simpl; [tauto|].
  rewrite IH. destruct (sm_step s e) as [s1 o] eqn:E. cbn [fst].
  destruct (sm_run s1 es1) as [a b]. cbn [fst]. tauto.
Qed.

Lemma clearances_snoc h r : clearances (h ++ [r]) = note (clearances h) r.
Proof. unfold clearances. by rewrite fold_left_app. Qed.

(** ** The invariant of calm runs *)
Definition fresh_try (s : mgr) (x : sess) (cid : N) : Prop :=
  ∃ t, ss_try x = TClear cid t ∧ sm_now s < t + TTL.

Definition bound (x : sess) (cid : N) : Prop :=
  ss_cid x = Some cid ∧ ss_state x ≠ Disconnecting.

Record Inv (s : mgr) : Prop := {
  iv_next : ∀ sid x, sm_all s !! sid = Some x → sid < sm_next s;
  iv_init : ∀ sid1 sid2 x1 x2, sm_all s !! sid1 = Some x1 →
    sm_all s !! sid2 = Some x2 → ss_init x1 = ss_init x2 → sid1 = sid2;
  iv_wait : ∀ sid x cid old t, sm_all s !! sid = Some x →
    ss_try x ≠ TWait cid old t;
  iv_nocid : ∀ sid x cid t, sm_all s !! sid = Some x →
    ss_try x = TClear cid t → ss_cid x = None;
  iv_prov : ∀ sid x, sm_all s !! sid = Some x → ss_state x = Provisional →
    sm_prov s !! ss_addr x = Some sid;
  iv_sess : ∀ sid x, sm_all s !! sid = Some x →
    ss_state x = Upgraded ∨ ss_state x = Connected →
    ∃ cid, ss_cid x = Some cid ∧ sm_sessions s !! cid = Some sid;
  iv_resv : ∀ sid x cid t, sm_all s !! sid = Some x →
    ss_try x = TClear cid t → sm_now s < t + TTL →
    sm_resv s !! cid = Some t;
  iv_try1 : ∀ sid1 sid2 x1 x2 cid, sm_all s !! sid1 = Some x1 →
    sm_all s !! sid2 = Some x2 → fresh_try s x1 cid → fresh_try s x2 cid →
    sid1 = sid2;
  iv_try2 : ∀ sid1 sid2 x1 x2 cid, sm_all s !! sid1 = Some x1 →
    sm_all s !! sid2 = Some x2 → fresh_try s x1 cid → bound x2 cid → False;
  iv_bound : ∀ sid1 sid2 x1 x2 cid, sm_all s !! sid1 = Some x1 →
    sm_all s !! sid2 = Some x2 → bound x1 cid → bound x2 cid → sid1 = sid2
}.

Lemma Inv0 : Inv sm0.
Proof. split; intros *; simpl; rewrite ?lookup_empty; done. Qed.

(** Nothing that carries the account is found: no session is bound to it. *)
Lemma lookup_none s cid sid x :
  Inv s → lookup_cid s cid = None → sm_all s !! sid = Some x →
  bound x cid → False.
Proof.
  intros HI Hl Hx [Hc Hst]. unfold lookup_cid in Hl.
  destruct (sm_sessions s !! cid) eqn:Es; [done|].
  destruct (ss_state x) eqn:Est.
  - pose proof (iv_prov _ HI _ _ Hx Est) as Hp.
    assert (Hin : sid ∈ filter (λ sid, carries s cid sid = true)
                    (snd <$> map_to_list (sm_prov s))).
    { apply elem_of_list_filter. split.
      - unfold carries. rewrite Hx, Hc. by apply bool_decide_eq_true.
      - apply elem_of_list_fmap. exists (ss_addr x, sid). split; [done|].
        by apply elem_of_map_to_list. }
    destruct (filter _ _); [by apply elem_of_nil in Hin|done].
  - destruct (iv_sess _ HI _ _ Hx (or_introl Est)) as (c & ? & ?). congruence.
  - destruct (iv_sess _ HI _ _ Hx (or_intror Est)) as (c & ? & ?). congruence.
  - done.
Qed.

Lemma lookup_cid_ext s s' cid :
  sm_sessions s = sm_sessions s' → sm_prov s = sm_prov s' →
  sm_all s = sm_all s' → lookup_cid s cid = lookup_cid s' cid.
Proof.
  intros E1 E2 E3. unfold lookup_cid, carries. by rewrite E1, E2, E3.
Qed.

Lemma purge_fresh s cid t :
  sm_resv s !! cid = Some t → sm_now s < t + TTL → purge s !! cid = Some t.
Proof. intros H1 H2. unfold purge. by apply map_filter_lookup_Some. Qed.

Lemma purge_some s cid t :
  purge s !! cid = Some t → sm_resv s !! cid = Some t.
Proof. unfold purge. intros H. by apply map_filter_lookup_Some in H as [? _]. Qed.

(** What a SYN can do. *)
Lemma can_proceed_cleared s sid cid x s' c :
  can_proceed s sid cid x = (s', OCleared c) →
  c = cid ∧ lookup_cid s cid = None ∧ purge s !! cid = None ∧
  s' = put sid (with_try (TClear cid (sm_now s)) x)
         (with_resv (<[cid := sm_now s]> (purge s)) s).
Proof.
  unfold can_proceed.
  rewrite (lookup_cid_ext (with_resv (purge s) s) s) by done.
  destruct (lookup_cid s cid) as [old|].
  - destruct (sm_all (with_resv (purge s) s) !! old); [|done].
    destruct (bool_decide _); [|done]. by destruct (ss_listener _).
  - cbn [sm_resv with_resv].
    destruct (purge s !! cid) eqn:E; [done|].
    intros [= <- <-]. done.
Qed.

Lemma can_proceed_refused s sid cid x s' :
  can_proceed s sid cid x = (s', ORefused) → s' = with_resv (purge s) s.
Proof.
  unfold can_proceed.
  destruct (lookup_cid _ cid) as [old|].
  - destruct (sm_all (with_resv (purge s) s) !! old); [|by intros [= <-]].
    destruct (bool_decide _); [|by intros [= <-]].
    destruct (ss_listener _); by intros [= <-].
  - destruct (sm_resv _ !! cid); by intros [= <-].
Qed.

Lemma can_proceed_out s sid cid x :
  (can_proceed s sid cid x).2 ≠ ONone.
Proof.
  unfold can_proceed.
  destruct (lookup_cid _ cid) as [old|].
  - destruct (sm_all (with_resv (purge s) s) !! old); [|done].
    destruct (bool_decide _); [|done].
    destruct (ss_listener _); done.
  - destruct (sm_resv _ !! cid); done.
Qed.

Lemma Inv_purge s : Inv s → Inv (with_resv (purge s) s).
Proof.
  intros HI. split; cbn [with_resv sm_all sm_next sm_prov sm_sessions sm_resv
    sm_now]; try apply HI.
  - intros sid x cid t Hx Ht Hn. apply purge_fresh; [|done].
    by eapply (iv_resv _ HI).
Qed.

Lemma Inv_syn s sid cid x :
  Inv s → sm_all s !! sid = Some x → ss_cid x = None →
  ss_try x = TNone →
  lookup_cid s cid = None → purge s !! cid = None →
  Inv (put sid (with_try (TClear cid (sm_now s)) x)
         (with_resv (<[cid := sm_now s]> (purge s)) s)).
Proof.
  intros HI Hx Hc Ht Hl Hp.
  assert (Hno : ∀ sid' y, sm_all s !! sid' = Some y → fresh_try s y cid → False).
  { intros sid' y Hy (t & Hty & Hn).
    pose proof (purge_fresh _ _ _ (iv_resv _ HI _ _ _ _ Hy Hty Hn) Hn).
    congruence. }
  split; unfold put; cbn [with_all with_resv sm_all sm_next sm_prov sm_sessions
    sm_resv sm_now].
  - intros sid' y [[<- <-]|[? Hy]]%lookup_insert_Some.
    + by eapply (iv_next _ HI). + by eapply (iv_next _ HI).
  - intros s1 s2 x1 x2 [[<- <-]|[? H1]]%lookup_insert_Some
      [[<- <-]|[? H2]]%lookup_insert_Some; cbn [with_try ss_init];
      intros E; try done; by eapply (iv_init _ HI).
  - intros sid' y c old t [[<- <-]|[? Hy]]%lookup_insert_Some; [done|].
    by eapply (iv_wait _ HI).
  - intros sid' y c t [[<- <-]|[? Hy]]%lookup_insert_Some; [done|].
    by eapply (iv_nocid _ HI).
  - intros sid' y [[<- <-]|[? Hy]]%lookup_insert_Some; cbn [with_try ss_state
      ss_addr]; by apply (iv_prov _ HI).
  - intros sid' y [[<- <-]|[? Hy]]%lookup_insert_Some; cbn [with_try ss_state
      ss_cid]; by apply (iv_sess _ HI).
  - intros sid' y c t [[<- <-]|[? Hy]]%lookup_insert_Some;
      cbn [with_try ss_try].
    + intros [= <- <-] _. by rewrite lookup_insert.
    + intros Hty Hn. destruct (decide (cid = c)) as [<-|Hne].
      * exfalso. eapply Hno; [exact Hy|]. by exists t.
      * rewrite lookup_insert_ne by done. apply purge_fresh; [|done].
        by eapply (iv_resv _ HI).
  - intros s1 s2 x1 x2 c [[<- <-]|[? H1]]%lookup_insert_Some
      [[<- <-]|[? H2]]%lookup_insert_Some; unfold fresh_try;
      cbn [with_try ss_try sm_now].
    + done.
    + intros (t & [= <- <-] & _) F2. exfalso. by eapply Hno.
    + intros F1 (t & [= <- <-] & _). exfalso. by eapply Hno.
    + intros F1 F2. by eapply (iv_try1 _ HI _ _ _ _ _ H1 H2 F1 F2).
  - intros s1 s2 x1 x2 c [[<- <-]|[? H1]]%lookup_insert_Some
      [[<- <-]|[? H2]]%lookup_insert_Some; unfold fresh_try, bound;
      cbn [with_try ss_try sm_now ss_cid ss_state].
    + intros _ [? _]. congruence.
    + intros (t & [= <- <-] & _) F2. by eapply (lookup_none _ _ _ _ HI Hl H2).
    + intros _ [? _]. congruence.
    + intros F1 F2. by eapply (iv_try2 _ HI _ _ _ _ _ H1 H2 F1 F2).
  - intros s1 s2 x1 x2 c [[<- <-]|[? H1]]%lookup_insert_Some
      [[<- <-]|[? H2]]%lookup_insert_Some; unfold bound;
      cbn [with_try ss_try ss_cid ss_state];
      try (intros [? _] [? _]; congruence); try (intros _ [? _]; congruence).
    intros F1 F2. by eapply (iv_bound _ HI _ _ _ _ _ H1 H2 F1 F2).
Qed.

(** A change of one session that gives nothing new. *)
Lemma Inv_weaken s sid x y rs :
  Inv s → sm_all s !! sid = Some x →
  ss_addr y = ss_addr x → ss_init y = ss_init x → ss_cid y = ss_cid x →
  (ss_state y = ss_state x ∨ ss_state y = Disconnecting) →
  (ss_try y = ss_try x ∨ ss_try y = TNone) →
  (∀ c t, rs !! c = Some t → sm_resv s !! c = Some t) →
  (∀ c, rs !! c = None → sm_resv s !! c = None ∨
     (∃ t, ss_try x = TClear c t ∧ sm_now s < t + TTL ∧ ss_try y = TNone)) →
  Inv (put sid y (with_resv rs s)).
Proof.
  intros HI Hx Ha Hi Hc Hst Htr Hrs1 Hrs2.
  split; unfold put; cbn [with_all with_resv sm_all sm_next sm_prov sm_sessions
    sm_resv sm_now].
  - intros sid' z [[<- <-]|[? Hz]]%lookup_insert_Some.
    + by eapply (iv_next _ HI). + by eapply (iv_next _ HI).
  - intros s1 s2 x1 x2 [[<- <-]|[? H1]]%lookup_insert_Some
      [[<- <-]|[? H2]]%lookup_insert_Some; rewrite ?Hi;
      intros E; try done; by eapply (iv_init _ HI).
  - intros sid' z c old t [[<- <-]|[? Hz]]%lookup_insert_Some.
    + destruct Htr as [-> | ->]; [|done]. by eapply (iv_wait _ HI).
    + by eapply (iv_wait _ HI).
  - intros sid' z c t [[<- <-]|[? Hz]]%lookup_insert_Some.
    + rewrite Hc. destruct Htr as [-> | ->]; [|done]. by eapply (iv_nocid _ HI).
    + by eapply (iv_nocid _ HI).
  - intros sid' z [[<- <-]|[? Hz]]%lookup_insert_Some.
    + rewrite Ha. destruct Hst as [-> | ->]; [|done]. by apply (iv_prov _ HI).
    + by apply (iv_prov _ HI).
  - intros sid' z [[<- <-]|[? Hz]]%lookup_insert_Some.
    + rewrite Hc. destruct Hst as [-> | ->]; [|by intros [?|?]].
      by apply (iv_sess _ HI).
    + by apply (iv_sess _ HI).
  - intros sid' z c t Hz Hzt Hn.
    assert (Hold : ∃ z0, sm_all s !! sid' = Some z0 ∧ ss_try z0 = TClear c t).
    { apply lookup_insert_Some in Hz as [[<- <-]|[? Hz]].
      - exists x. split; [done|]. destruct Htr as [<- | E]; [done|congruence].
      - by exists z. }
    destruct Hold as (z0 & Hz0 & Hz0t).
    pose proof (iv_resv _ HI _ _ _ _ Hz0 Hz0t Hn) as Hr.
    destruct (rs !! c) as [t'|] eqn:Er.
    + apply Hrs1 in Er. congruence.
    + destruct (Hrs2 _ Er) as [?|(t' & Hxt & Hn' & Hy)]; [congruence|].
      exfalso. assert (Hne : sid' = sid).
      { eapply (iv_try1 _ HI _ _ _ _ c Hz0 Hx); [by exists t|by exists t']. }
      subst sid'. rewrite lookup_insert in Hz. simplify_eq. congruence.
  - intros s1 s2 x1 x2 c H1 H2 F1 F2.
    assert (Hold : ∀ s0 x0, <[sid:=y]> (sm_all s) !! s0 = Some x0 →
      fresh_try s x0 c → ∃ z0, sm_all s !! s0 = Some z0 ∧ fresh_try s z0 c).
    { intros s0 x0 [[<- <-]|[? H0]]%lookup_insert_Some (t & Ht & Hn).
      - exists x. split; [done|]. exists t. split; [|done].
        destruct Htr as [<- | E]; [done|congruence].
      - exists x0. split; [done|]. by exists t. }
    destruct (Hold _ _ H1 F1) as (y1 & Hy1 & Hf1).
    destruct (Hold _ _ H2 F2) as (y2 & Hy2 & Hf2).
    exact (iv_try1 _ HI _ _ _ _ _ Hy1 Hy2 Hf1 Hf2).
  - intros s1 s2 x1 x2 c H1 H2 F1 F2.
    assert (Ho1 : ∃ z0, sm_all s !! s1 = Some z0 ∧ fresh_try s z0 c).
    { apply lookup_insert_Some in H1 as [[<- <-]|[? H1]].
      - exists x. split; [done|]. destruct F1 as (t & Ht & Hn). exists t.
        split; [|done]. destruct Htr as [<- | E]; [done|congruence].
      - by exists x1. }
    assert (Ho2 : ∃ z0, sm_all s !! s2 = Some z0 ∧ bound z0 c).
    { apply lookup_insert_Some in H2 as [[<- <-]|[? H2]].
      - exists x. split; [done|]. destruct F2 as [Fc Fs]. split; [congruence|].
        destruct Hst as [<- | E]; [done|congruence].
      - by exists x2. }
    destruct Ho1 as (y1 & Hy1 & Hf1). destruct Ho2 as (y2 & Hy2 & Hf2).
    exact (iv_try2 _ HI _ _ _ _ _ Hy1 Hy2 Hf1 Hf2).
  - intros s1 s2 x1 x2 c H1 H2 F1 F2.
    assert (Hold : ∀ s0 x0, <[sid:=y]> (sm_all s) !! s0 = Some x0 →
      bound x0 c → ∃ z0, sm_all s !! s0 = Some z0 ∧ bound z0 c).
    { intros s0 x0 [[<- <-]|[? H0]]%lookup_insert_Some [Fc Fs].
      - exists x. split; [done|]. split; [congruence|].
        destruct Hst as [<- | E]; [done|congruence].
      - by exists x0. }
    destruct (Hold _ _ H1 F1) as (y1 & Hy1 & Hf1).
    destruct (Hold _ _ H2 F2) as (y2 & Hy2 & Hf2).
    exact (iv_bound _ HI _ _ _ _ _ Hy1 Hy2 Hf1 Hf2).
Qed.

Lemma Inv_weaken' s sid x y :
  Inv s → sm_all s !! sid = Some x →
  ss_addr y = ss_addr x → ss_init y = ss_init x → ss_cid y = ss_cid x →
  (ss_state y = ss_state x ∨ ss_state y = Disconnecting) →
  (ss_try y = ss_try x ∨ ss_try y = TNone) →
  Inv (put sid y s).
Proof.
  intros HI Hx Ha Hi Hc Hst Htr.
  replace (put sid y s) with (put sid y (with_resv (sm_resv s) s))
    by (by destruct s).
  eapply Inv_weaken; eauto.
Qed.

(** Parts of the state that the invariant does not look at. *)
Lemma Inv_layer s l : Inv s → Inv (with_layer l s).
Proof. intros []; split; assumption. Qed.
Lemma Inv_tasks s l : Inv s → Inv (with_tasks l s).
Proof. intros []; split; assumption. Qed.

Lemma Inv_tick s d :
  Inv s → Inv (Mgr (sm_now s + d) (sm_next s) (sm_all s) (sm_sessions s)
                 (sm_prov s) (sm_resv s) (sm_layer s) (sm_tasks s)).
Proof.
  intros HI.
  assert (Hf : ∀ x cid, fresh_try (Mgr (sm_now s + d) (sm_next s) (sm_all s)
    (sm_sessions s) (sm_prov s) (sm_resv s) (sm_layer s) (sm_tasks s)) x cid →
    fresh_try s x cid).
  { intros x cid (t & Ht & Hn). exists t. split; [done|].
    cbn [sm_now] in Hn. clear -Hn. unfold TTL in *. lia. }
  split; cbn [sm_all sm_next sm_prov sm_sessions sm_resv sm_now];
    try apply HI.
  - intros sid x cid t Hx Ht Hn. eapply (iv_resv _ HI); [done|done|].
    clear -Hn. unfold TTL in *. lia.
  - intros s1 s2 x1 x2 c H1 H2 F1 F2.
    exact (iv_try1 _ HI _ _ _ _ _ H1 H2 (Hf _ _ F1) (Hf _ _ F2)).
  - intros s1 s2 x1 x2 c H1 H2 F1 F2.
    exact (iv_try2 _ HI _ _ _ _ _ H1 H2 (Hf _ _ F1) F2).
Qed.

Lemma Inv_open s addr :
  Inv s → sm_prov s !! addr = None →
  (∀ sid x, sm_all s !! sid = Some x → ss_init x ≠ sm_now s) →
  Inv (sm_step s (EOpen addr)).1.
Proof.
  intros HI Hp Hi. cbn [sm_step fst].
  split; cbn [sm_all sm_next sm_prov sm_sessions sm_resv sm_now].
  - intros sid x [[<- _]|[_ H]]%lookup_insert_Some; [lia|].
    pose proof (iv_next _ HI _ _ H). lia.
  - intros s1 s2 x1 x2 [[<- <-]|[? H1]]%lookup_insert_Some
      [[<- <-]|[? H2]]%lookup_insert_Some; cbn [ss_init]; intros E.
    + done.
    + by destruct (Hi _ _ H2).
    + by destruct (Hi _ _ H1).
    + by eapply (iv_init _ HI).
  - intros sid' z c old t [[<- <-]|[? Hz]]%lookup_insert_Some; [done|].
    by eapply (iv_wait _ HI).
  - intros sid' z c t [[<- <-]|[? Hz]]%lookup_insert_Some; [done|].
    by eapply (iv_nocid _ HI).
  - intros sid' z [[<- <-]|[? Hz]]%lookup_insert_Some Hst.
    + cbn [ss_addr]. by rewrite lookup_insert.
    + pose proof (iv_prov _ HI _ _ Hz Hst) as Hq.
      rewrite lookup_insert_ne; [done|]. intros E. rewrite <- E in Hq. congruence.
  - intros sid' z [[<- <-]|[? Hz]]%lookup_insert_Some.
    + cbn [ss_state]. by intros [?|?].
    + by apply (iv_sess _ HI).
  - intros sid' z c t [[<- <-]|[? Hz]]%lookup_insert_Some; [done|].
    by eapply (iv_resv _ HI).
  - intros s1 s2 x1 x2 c [[<- <-]|[? H1]]%lookup_insert_Some
      [[<- <-]|[? H2]]%lookup_insert_Some; try done;
      try (intros (? & ? & ?); done); try (intros _ (? & ? & ?); done).
    intros F1 F2. by eapply (iv_try1 _ HI _ _ _ _ _ H1 H2 F1 F2).
  - intros s1 s2 x1 x2 c [[<- <-]|[? H1]]%lookup_insert_Some
      [[<- <-]|[? H2]]%lookup_insert_Some; try done;
      try (intros (? & ? & ?); done); try (intros _ [? _]; done).
    intros F1 F2. by eapply (iv_try2 _ HI _ _ _ _ _ H1 H2 F1 F2).
  - intros s1 s2 x1 x2 c [[<- <-]|[? H1]]%lookup_insert_Some
      [[<- <-]|[? H2]]%lookup_insert_Some; try done;
      try (intros [? _]; done); try (intros _ [? _]; done).
    intros F1 F2. by eapply (iv_bound _ HI _ _ _ _ _ H1 H2 F1 F2).
Qed.

Lemma Inv_commit s sid x cid t :
  Inv s → sm_all s !! sid = Some x → ss_try x = TClear cid t →
  sm_now s < t + TTL →
  Inv (put sid (with_try TNone (with_cid cid x))
         (with_resv (delete cid (sm_resv s)) s)).
Proof.
  intros HI Hx Ht Hn.
  assert (Hfx : fresh_try s x cid) by (by exists t).
  split; unfold put; cbn [with_all with_resv sm_all sm_next sm_prov sm_sessions
    sm_resv sm_now].
  - intros sid' z [[<- <-]|[? Hz]]%lookup_insert_Some.
    + by eapply (iv_next _ HI). + by eapply (iv_next _ HI).
  - intros s1 s2 x1 x2 [[<- <-]|[? H1]]%lookup_insert_Some
      [[<- <-]|[? H2]]%lookup_insert_Some; cbn [with_try with_cid ss_init];
      intros E; try done; by eapply (iv_init _ HI).
  - intros sid' z c old t' [[<- <-]|[? Hz]]%lookup_insert_Some; [done|].
    by eapply (iv_wait _ HI).
  - intros sid' z c t' [[<- <-]|[? Hz]]%lookup_insert_Some; [done|].
    by eapply (iv_nocid _ HI).
  - intros sid' z [[<- <-]|[? Hz]]%lookup_insert_Some;
      cbn [with_try with_cid ss_state ss_addr]; by apply (iv_prov _ HI).
  - intros sid' z [[<- <-]|[? Hz]]%lookup_insert_Some;
      cbn [with_try with_cid ss_state ss_cid].
    + intros Hst. destruct (iv_sess _ HI _ _ Hx Hst) as (c & Hc & _).
      pose proof (iv_nocid _ HI _ _ _ _ Hx Ht). congruence.
    + by apply (iv_sess _ HI).
  - intros sid' z c t' [[<- <-]|[Hne Hz]]%lookup_insert_Some; [done|].
    intros Hzt Hn'. destruct (decide (cid = c)) as [<-|Hc].
    + destruct Hne. eapply (iv_try1 _ HI _ _ _ _ cid Hx Hz); [done|].
      by exists t'.
    + rewrite lookup_delete_ne by done. by eapply (iv_resv _ HI).
  - intros s1 s2 x1 x2 c [[<- <-]|[? H1]]%lookup_insert_Some
      [[<- <-]|[? H2]]%lookup_insert_Some; try done;
      try (intros (? & ? & ?); done); try (intros _ (? & ? & ?); done).
    intros F1 F2. by eapply (iv_try1 _ HI _ _ _ _ _ H1 H2 F1 F2).
  - intros s1 s2 x1 x2 c [[<- <-]|[Hne H1]]%lookup_insert_Some
      [[<- <-]|[? H2]]%lookup_insert_Some; try done;
      try (intros (? & ? & ?); done).
    + intros F1 [[= <-] _]. apply Hne.
      by eapply (iv_try1 _ HI _ _ _ _ cid Hx H1).
    + intros F1 F2. by eapply (iv_try2 _ HI _ _ _ _ _ H1 H2 F1 F2).
  - intros s1 s2 x1 x2 c [[<- <-]|[? H1]]%lookup_insert_Some
      [[<- <-]|[? H2]]%lookup_insert_Some; try done.
    + intros [[= <-] _] F2. exfalso. by eapply (iv_try2 _ HI _ _ _ _ _ Hx H2).
    + intros F1 [[= <-] _]. exfalso. by eapply (iv_try2 _ HI _ _ _ _ _ Hx H1).
    + intros F1 F2. by eapply (iv_bound _ HI _ _ _ _ _ H1 H2 F1 F2).
Qed.

Lemma Inv_upgrade s sid x cid :
  Inv s → sm_all s !! sid = Some x → ss_cid x = Some cid →
  ss_state x = Provisional →
  Inv (put sid (with_state Upgraded x)
         (with_sessions (<[cid := sid]> (sm_sessions s))
            (with_prov (delete (ss_addr x) (sm_prov s)) s))).
Proof.
  intros HI Hx Hc Hst.
  pose proof (iv_prov _ HI _ _ Hx Hst) as Hp.
  assert (Hbx : bound x cid) by (split; [done|by rewrite Hst]).
  assert (Htx : ∀ c t, ss_try x ≠ TClear c t).
  { intros c t E. pose proof (iv_nocid _ HI _ _ _ _ Hx E). congruence. }
  split; unfold put; cbn [with_all with_sessions with_prov sm_all sm_next
    sm_prov sm_sessions sm_resv sm_now].
  - intros sid' z [[<- <-]|[? Hz]]%lookup_insert_Some.
    + by eapply (iv_next _ HI). + by eapply (iv_next _ HI).
  - intros s1 s2 x1 x2 [[<- <-]|[? H1]]%lookup_insert_Some
      [[<- <-]|[? H2]]%lookup_insert_Some; cbn [with_state ss_init];
      intros E; try done; by eapply (iv_init _ HI).
  - intros sid' z c old t' [[<- <-]|[? Hz]]%lookup_insert_Some;
      cbn [with_state ss_try]; by eapply (iv_wait _ HI).
  - intros sid' z c t' [[<- <-]|[? Hz]]%lookup_insert_Some;
      cbn [with_state ss_try ss_cid]; by eapply (iv_nocid _ HI).
  - intros sid' z [[<- <-]|[Hne Hz]]%lookup_insert_Some; [done|].
    intros Hzs. pose proof (iv_prov _ HI _ _ Hz Hzs) as Hq.
    rewrite lookup_delete_ne; [done|]. intros E. rewrite <- E in Hq. congruence.
  - intros sid' z [[<- <-]|[Hne Hz]]%lookup_insert_Some.
    + cbn [with_state ss_cid]. intros _. exists cid. split; [done|].
      by rewrite lookup_insert.
    + intros Hzs. destruct (iv_sess _ HI _ _ Hz Hzs) as (c & Hzc & Hsc).
      exists c. split; [done|]. rewrite lookup_insert_ne; [done|].
      intros <-. apply Hne. eapply (iv_bound _ HI _ _ _ _ cid Hx Hz); [done|].
      split; [done|]. destruct Hzs as [-> | ->]; done.
  - intros sid' z c t' [[<- <-]|[Hne Hz]]%lookup_insert_Some;
      cbn [with_state ss_try]; by eapply (iv_resv _ HI).
  - intros s1 s2 x1 x2 c [[<- <-]|[? H1]]%lookup_insert_Some
      [[<- <-]|[? H2]]%lookup_insert_Some; try done.
    + intros (? & ? & ?). by edestruct Htx.
    + intros _ (? & ? & ?). by edestruct Htx.
    + intros F1 F2. by eapply (iv_try1 _ HI _ _ _ _ _ H1 H2 F1 F2).
  - intros s1 s2 x1 x2 c [[<- <-]|[? H1]]%lookup_insert_Some
      [[<- <-]|[? H2]]%lookup_insert_Some.
    + intros (? & ? & ?). by edestruct Htx.
    + intros (? & ? & ?). by edestruct Htx.
    + intros F1 [Fc _]. eapply (iv_try2 _ HI _ _ _ _ _ H1 Hx F1).
      split; [done|]. by rewrite Hst.
    + intros F1 F2. by eapply (iv_try2 _ HI _ _ _ _ _ H1 H2 F1 F2).
  - assert (Hb : ∀ c, bound (with_state Upgraded x) c → bound x c).
    { intros c [Fc _]. split; [done|]. by rewrite Hst. }
    intros s1 s2 x1 x2 c [[<- <-]|[? H1]]%lookup_insert_Some
      [[<- <-]|[? H2]]%lookup_insert_Some; try done; intros F1 F2.
    + by eapply (iv_bound _ HI _ _ _ _ _ Hx H2 (Hb _ F1) F2).
    + by eapply (iv_bound _ HI _ _ _ _ _ H1 Hx F1 (Hb _ F2)).
    + by eapply (iv_bound _ HI _ _ _ _ _ H1 H2 F1 F2).
Qed.

Lemma Inv_connected s sid x :
  Inv s → sm_all s !! sid = Some x → ss_state x = Upgraded →
  Inv (put sid (with_state Connected x) s).
Proof.
  intros HI Hx Hst.
  assert (Hb : ∀ c, bound (with_state Connected x) c → bound x c).
  { intros c [Fc _]. split; [done|]. by rewrite Hst. }
  split; unfold put; cbn [with_all sm_all sm_next sm_prov sm_sessions sm_resv
    sm_now].
  - intros sid' z [[<- <-]|[? Hz]]%lookup_insert_Some.
    + by eapply (iv_next _ HI). + by eapply (iv_next _ HI).
  - intros s1 s2 x1 x2 [[<- <-]|[? H1]]%lookup_insert_Some
      [[<- <-]|[? H2]]%lookup_insert_Some; cbn [with_state ss_init];
      intros E; try done; by eapply (iv_init _ HI).
  - intros sid' z c old t' [[<- <-]|[? Hz]]%lookup_insert_Some;
      cbn [with_state ss_try]; by eapply (iv_wait _ HI).
  - intros sid' z c t' [[<- <-]|[? Hz]]%lookup_insert_Some;
      cbn [with_state ss_try ss_cid]; by eapply (iv_nocid _ HI).
  - intros sid' z [[<- <-]|[Hne Hz]]%lookup_insert_Some; [done|].
    by apply (iv_prov _ HI).
  - intros sid' z [[<- <-]|[Hne Hz]]%lookup_insert_Some.
    + cbn [with_state ss_cid]. intros _. apply (iv_sess _ HI _ _ Hx). by left.
    + by apply (iv_sess _ HI).
  - intros sid' z c t' [[<- <-]|[Hne Hz]]%lookup_insert_Some;
      cbn [with_state ss_try]; by eapply (iv_resv _ HI).
  - intros s1 s2 x1 x2 c [[<- <-]|[? H1]]%lookup_insert_Some
      [[<- <-]|[? H2]]%lookup_insert_Some; try done; intros F1 F2.
    + by eapply (iv_try1 _ HI _ _ _ _ _ Hx H2 F1 F2).
    + by eapply (iv_try1 _ HI _ _ _ _ _ H1 Hx F1 F2).
    + by eapply (iv_try1 _ HI _ _ _ _ _ H1 H2 F1 F2).
  - intros s1 s2 x1 x2 c [[<- <-]|[? H1]]%lookup_insert_Some
      [[<- <-]|[? H2]]%lookup_insert_Some; intros F1 F2.
    + by eapply (iv_try2 _ HI _ _ _ _ _ Hx Hx F1 (Hb _ F2)).
    + by eapply (iv_try2 _ HI _ _ _ _ _ Hx H2 F1 F2).
    + by eapply (iv_try2 _ HI _ _ _ _ _ H1 Hx F1 (Hb _ F2)).
    + by eapply (iv_try2 _ HI _ _ _ _ _ H1 H2 F1 F2).
  - intros s1 s2 x1 x2 c [[<- <-]|[? H1]]%lookup_insert_Some
      [[<- <-]|[? H2]]%lookup_insert_Some; try done; intros F1 F2.
    + by eapply (iv_bound _ HI _ _ _ _ _ Hx H2 (Hb _ F1) F2).
    + by eapply (iv_bound _ HI _ _ _ _ _ H1 Hx F1 (Hb _ F2)).
    + by eapply (iv_bound _ HI _ _ _ _ _ H1 H2 F1 F2).
Qed.

(** What the end of a session removes from the maps. *)
Lemma clear_session_keeps s x :
  sm_all (clear_session s x) = sm_all s ∧
  sm_next (clear_session s x) = sm_next s ∧
  sm_prov (clear_session s x) = sm_prov s ∧
  sm_resv (clear_session s x) = sm_resv s ∧
  sm_now (clear_session s x) = sm_now s ∧
  sm_layer (clear_session s x) = sm_layer s ∧
  sm_tasks (clear_session s x) = sm_tasks s.
Proof.
  unfold clear_session.
  destruct (ss_cid x); [|done]. destruct (sm_sessions s !! _); [|done].
  destruct (same_init _ _ _); done.
Qed.

Lemma clear_prov_keeps s x :
  sm_all (clear_prov s x) = sm_all s ∧
  sm_next (clear_prov s x) = sm_next s ∧
  sm_sessions (clear_prov s x) = sm_sessions s ∧
  sm_resv (clear_prov s x) = sm_resv s ∧
  sm_now (clear_prov s x) = sm_now s ∧
  sm_layer (clear_prov s x) = sm_layer s ∧
  sm_tasks (clear_prov s x) = sm_tasks s.
Proof.
  unfold clear_prov. destruct (sm_prov s !! _); [|done].
  destruct (same_init _ _ _); done.
Qed.

Definition inits_differ (s : mgr) : Prop :=
  ∀ sid1 sid2 x1 x2, sm_all s !! sid1 = Some x1 →
    sm_all s !! sid2 = Some x2 → ss_init x1 = ss_init x2 → sid1 = sid2.

Lemma clear_session_other s sid x cid other :
  inits_differ s → sm_all s !! sid = Some x → other ≠ sid →
  sm_sessions s !! cid = Some other →
  sm_sessions (clear_session s x) !! cid = Some other.
Proof.
  intros HI Hx Hne Hs. unfold clear_session.
  destruct (ss_cid x) as [c|]; [|done].
  destruct (sm_sessions s !! c) as [o|] eqn:Eo; [|done].
  destruct (same_init s x o) eqn:Ei; [|done].
  cbn [with_sessions sm_sessions].
  rewrite lookup_delete_ne; [done|]. intros ->.
  rewrite Hs in Eo. simplify_eq. unfold same_init in Ei.
  destruct (sm_all s !! o) as [y|] eqn:Ey; [|done].
  apply bool_decide_eq_true in Ei. apply Hne. by eapply HI.
Qed.

Lemma clear_prov_other s sid x a other :
  inits_differ s → sm_all s !! sid = Some x → other ≠ sid →
  sm_prov s !! a = Some other →
  sm_prov (clear_prov s x) !! a = Some other.
Proof.
  intros HI Hx Hne Hs. unfold clear_prov.
  destruct (sm_prov s !! ss_addr x) as [o|] eqn:Eo; [|done].
  destruct (same_init s x o) eqn:Ei; [|done].
  cbn [with_prov sm_prov].
  rewrite lookup_delete_ne; [done|]. intros <-.
  rewrite Hs in Eo. simplify_eq. unfold same_init in Ei.
  destruct (sm_all s !! o) as [y|] eqn:Ey; [|done].
  apply bool_decide_eq_true in Ei. apply Hne. by eapply HI.
Qed.

Lemma Inv_clear s sid x :
  Inv s → sm_all s !! sid = Some x →
  Inv (put sid (with_phase Cleared (with_state Disconnecting x))
         (clear_prov (clear_session s x) x)).
Proof.
  intros HI0 Hx.
  assert (HI : Inv (put sid (with_phase Cleared (with_state Disconnecting x)) s)).
  { eapply Inv_weaken'; [done|exact Hx|done..| |]; cbn; auto. }
  assert (Hd : inits_differ s) by (exact (iv_init _ HI0)).
  destruct (clear_session_keeps s x) as (K1 & K2 & K3 & K4 & K5 & _).
  destruct (clear_prov_keeps (clear_session s x) x)
    as (L1 & L2 & L3 & L4 & L5 & _).
  rewrite K1 in L1. rewrite K2 in L2. rewrite K4 in L4. rewrite K5 in L5.
  unfold put in *.
  split; cbn [with_all sm_all sm_next sm_prov sm_sessions sm_resv sm_now];
    rewrite ?L1, ?L2, ?L3, ?L4, ?L5.
  - apply (iv_next _ HI).
  - apply (iv_init _ HI).
  - apply (iv_wait _ HI).
  - apply (iv_nocid _ HI).
  - intros sid' z [[<- <-]|[Hne Hz]]%lookup_insert_Some; [done|]. intros Hst.
    apply (clear_prov_other _ sid); [by unfold inits_differ; rewrite K1|
      by rewrite K1|done|]. rewrite K3. by apply (iv_prov _ HI0).
  - intros sid' z [[<- <-]|[Hne Hz]]%lookup_insert_Some; [by intros [?|?]|].
    intros Hst. destruct (iv_sess _ HI0 _ _ Hz Hst) as (c & ? & ?).
    exists c. split; [done|]. by apply (clear_session_other _ sid).
  - apply (iv_resv _ HI).
  - intros s1 s2 x1 x2 c H1 H2 F1 F2.
    eapply (iv_try1 _ HI s1 s2 x1 x2 c H1 H2); unfold fresh_try in *;
      cbn [with_all sm_now] in *; by rewrite L5 in *.
  - intros s1 s2 x1 x2 c H1 H2 F1 F2.
    eapply (iv_try2 _ HI s1 s2 x1 x2 c H1 H2); [|done]. unfold fresh_try in *;
      cbn [with_all sm_now] in *; by rewrite L5 in *.
  - apply (iv_bound _ HI).
Qed.

Lemma Inv_step s e : Inv s → calm_ev s e → Inv (sm_step s e).1.
Proof.
  intros HI Hc. destruct e as [d|a|sid cid|sid|sid|sid|sid|sid|sid|sid|sid
    |sid|sid|sid|cid]; cbn [sm_step].
  - by apply Inv_tick.
  - destruct Hc as [H1 H2]. by apply Inv_open.
  - destruct Hc as [H1 H2]. cbn [sm_step] in H2.
    destruct (sm_all s !! sid) as [x|] eqn:Ex; [|done].
    destruct (bool_decide (ss_try x = TNone)
      && bool_decide (ss_state x ≠ Connected)
      && bool_decide (ss_state x ≠ Disconnecting)) eqn:Eb; [|done].
    apply andb_prop in Eb as [[Et%bool_decide_eq_true _]%andb_prop _].
    destruct (can_proceed s sid cid x) as [s' o] eqn:Ec. cbn [fst snd] in *.
    destruct o as [|c| |].
    + pose proof (can_proceed_out s sid cid x). by rewrite Ec in H.
    + apply can_proceed_cleared in Ec as (-> & Hl & Hp & ->).
      apply Inv_syn; auto.
    + apply can_proceed_refused in Ec as ->. by apply Inv_purge.
    + done.
  - destruct (sm_all s !! sid) as [x|] eqn:Ex; [|done].
    destruct (ss_try x) eqn:Et; [done| |done].
    by destruct (iv_wait _ HI _ _ cid old since Ex).
  - destruct (sm_all s !! sid) as [x|] eqn:Ex; [|done].
    destruct (ss_try x) eqn:Et; [done| |done].
    by destruct (iv_wait _ HI _ _ cid old since Ex).
  - destruct (sm_all s !! sid) as [x|] eqn:Ex; [|done].
    destruct (ss_try x) eqn:Et; [done|done|].
    eapply Inv_commit; eauto.
  - destruct (sm_all s !! sid) as [x|] eqn:Ex; [|done].
    destruct (ss_try x) eqn:Et; [done|done|]. cbn [fst].
    eapply Inv_weaken; [done|exact Ex|done..| | | |].
    + by left.
    + by right.
    + intros c t [_ H]%lookup_delete_Some. done.
    + intros c [->|H]%lookup_delete_None; [|by left].
      right. exists since. split_and!; try done. by eapply Hc.
  - destruct (sm_all s !! sid) as [x|] eqn:Ex; [|done]. cbn [fst].
    eapply Inv_weaken'; [done|exact Ex|done..| |]; cbn; auto.
  - destruct (sm_all s !! sid) as [x|] eqn:Ex; [|done].
    destruct (ss_cid x) as [cid|] eqn:Ecid; [|done].
    destruct (bool_decide (ss_state x = Provisional)) eqn:Eb; [|done].
    apply bool_decide_eq_true in Eb.
    rewrite (iv_prov _ HI _ _ Ex Eb). cbn [fst]. by apply Inv_upgrade.
  - destruct (sm_all s !! sid) as [x|] eqn:Ex; [|done].
    destruct (ss_cid x) as [cid|] eqn:Ecid; [|done].
    destruct (bool_decide (ss_state x = Upgraded)) eqn:Eb; [|done].
    apply bool_decide_eq_true in Eb. cbn [fst].
    apply (Inv_connected (with_layer ({[cid]} ∪ sm_layer s) s) sid x);
      [by apply Inv_layer|done|done].
  - destruct (sm_all s !! sid) as [x|] eqn:Ex; [|done]. cbn [fst].
    eapply Inv_weaken'; [done|exact Ex|done..| |]; cbn; auto.
  - destruct (sm_all s !! sid) as [x|] eqn:Ex; [|done].
    destruct (bool_decide _); [|done]. cbn [fst]. by apply Inv_clear.
  - destruct (sm_all s !! sid) as [x|] eqn:Ex; [|done].
    destruct (bool_decide _); [|done]. cbn [fst].
    eapply Inv_weaken'; [by apply Inv_tasks|exact Ex|done..| |]; cbn; auto.
  - done.
  - destruct (bool_decide _); [|done]. cbn [fst].
    apply Inv_tasks. by apply Inv_layer.
Qed.

(** ** The clearances of the history are in the state *)
Definition Link (s : mgr) (h : gmap N clearance) : Prop :=
  ∀ (sid cid t : N) (b : bool), h !! sid = Some (cid, t, b) →
    ∃ x, sm_all s !! sid = Some x ∧ ss_state x ≠ Disconnecting ∧
      (if b then ss_cid x = Some cid else ss_try x = TClear cid t).

(** A session changed in a way that keeps what its clearance is about. *)
Lemma Link_put s h sid x y s' :
  Link s h → sm_all s !! sid = Some x →
  sm_all s' = <[sid := y]> (sm_all s) →
  (ss_state x ≠ Disconnecting → ss_state y ≠ Disconnecting) →
  (ss_cid y = ss_cid x) →
  (ss_try y = ss_try x ∨ ∀ c t, h !! sid ≠ Some (c, t, false)) →
  Link s' h.
Proof.
  intros HL Hx E Hs Hc Ht sid' cid t b Hh.
  destruct (HL _ _ _ _ Hh) as (z & Hz & HS & HB).
  rewrite E. destruct (decide (sid' = sid)) as [->|Hne].
  - rewrite lookup_insert. exists y. split; [done|]. simplify_eq.
    split; [auto|]. destruct b; [congruence|].
    destruct Ht as [Ht|Ht]; [congruence|]. by destruct (Ht cid t).
  - rewrite lookup_insert_ne by done. eauto.
Qed.

(** A session changed whose clearance is gone. *)
Lemma Link_drop s h sid y s' :
  Link s h → sm_all s' = <[sid := y]> (sm_all s) → Link s' (delete sid h).
Proof.
  intros HL E sid' cid t b [Hne H]%lookup_delete_Some.
  rewrite E, lookup_insert_ne by done. by apply HL.
Qed.

Lemma Link_delete s h sid : Link s h → Link s (delete sid h).
Proof.
  intros HL sid' cid t b [_ H]%lookup_delete_Some. by apply HL.
Qed.

Lemma Link_same s s' h : sm_all s' = sm_all s → Link s h → Link s' h.
Proof. intros E HL sid cid t b H. rewrite E. by apply HL. Qed.

Lemma Link_commit s sid h :
  Inv s → calm_ev s (ECommit sid) → Link s h →
  Link (sm_step s (ECommit sid)).1
       (note h (sm_now s, ECommit sid, (sm_step s (ECommit sid)).2)).
Proof.
  intros HI Hc HL. cbn [calm_ev] in Hc. cbn [sm_step note who].
  destruct (sm_all s !! sid) as [x|] eqn:Ex.
  2:{ cbn [fst snd]. destruct (h !! sid) as [[[c t] b]|] eqn:Eh; [|done].
      destruct (HL _ _ _ _ Eh) as (x & Hx & _). congruence. }
  destruct (h !! sid) as [[[c t] b]|] eqn:Eh.
  - destruct (HL _ _ _ _ Eh) as (x' & Hx & HS & HB). simplify_eq.
    destruct b.
    + destruct (ss_try x) eqn:Et; [done|done|].
      pose proof (iv_nocid _ HI _ _ _ _ Ex Et). congruence.
    + rewrite HB. cbn [fst snd].
      pose proof (Hc _ _ _ eq_refl HB) as Hn.
      assert ((sm_now s <? t + 30) = true) as -> by (clear -Hn; lia).
      intros sid' c' t' b' [[<- [= <- <- <-]]|[Hne H]]%lookup_insert_Some.
      * exists (with_try TNone (with_cid c x)).
        unfold put. cbn [with_all with_resv sm_all].
        by rewrite lookup_insert.
      * unfold put. cbn [with_all with_resv sm_all].
        rewrite lookup_insert_ne by done. by apply HL.
  - assert (Hgoal : ∀ y, Link (put sid y s) h).
    { intros y sid' c t b H. unfold put. cbn [with_all sm_all].
      destruct (decide (sid' = sid)) as [->|Hne]; [congruence|].
      rewrite lookup_insert_ne by done. by apply HL. }
    destruct (ss_try x); cbn [fst snd]; [done|done|].
    eapply Link_same; [|apply Hgoal]. done.
Qed.

Lemma Link_fail s sid h :
  Inv s → Link s h →
  Link (sm_step s (EFail sid)).1
       (note h (sm_now s, EFail sid, (sm_step s (EFail sid)).2)).
Proof.
  intros HI HL. cbn [sm_step note who].
  destruct (sm_all s !! sid) as [x|] eqn:Ex.
  2:{ cbn [fst snd]. destruct (h !! sid) as [[[c t] b]|] eqn:Eh; [|done].
      destruct (HL _ _ _ _ Eh) as (x & Hx & _). congruence. }
  assert (Hk : Link s (match h !! sid with
    | Some (_, _, false) => delete sid h | _ => h end)).
  { destruct (h !! sid) as [[[c t] []]|]; [done| |done]. by apply Link_delete. }
  destruct (ss_try x) eqn:Et; cbn [fst snd]; [done|done|].
  eapply (Link_put s _ sid x); [exact Hk|exact Ex|reflexivity|done|done|].
  right. intros c t. destruct (h !! sid) as [[[c' t'] []]|] eqn:Eh.
  - congruence.
  - by rewrite lookup_delete.
  - congruence.
Qed.

Lemma Link_step s e h :
  Inv s → calm_ev s e → Link s h →
  Link (sm_step s e).1 (note h (sm_now s, e, (sm_step s e).2)).
Proof.
  intros HI Hc HL. destruct e as [d|a|sid cid|sid|sid|sid|sid|sid|sid|sid|sid
    |sid|sid|sid|cid]; [| | | | |by apply Link_commit|by apply Link_fail|..];
    cbn [sm_step].
  - by apply (Link_same s).
  - cbn [fst snd note who]. intros sid cid t b H.
    destruct (HL _ _ _ _ H) as (x & Hx & HB).
    pose proof (iv_next _ HI _ _ Hx). cbn [sm_all].
    rewrite lookup_insert_ne by lia. eauto.
  - destruct Hc as [H1 H2]. cbn [sm_step] in H2.
    destruct (sm_all s !! sid) as [x|] eqn:Ex; [|done].
    destruct (bool_decide (ss_try x = TNone)
      && bool_decide (ss_state x ≠ Connected)
      && bool_decide (ss_state x ≠ Disconnecting)) eqn:Eb; [|done].
    apply andb_prop in Eb as [_ Es%bool_decide_eq_true].
    destruct (can_proceed s sid cid x) as [s' o] eqn:Ec. cbn [fst snd] in *.
    destruct o as [|c| |].
    + pose proof (can_proceed_out s sid cid x). by rewrite Ec in H.
    + apply can_proceed_cleared in Ec as (-> & Hl & Hp & ->).
      cbn [note who].
      intros sid' c t b [[<- [= <- <- <-]]|[Hne H]]%lookup_insert_Some.
      * exists (with_try (TClear cid (sm_now s)) x).
        unfold put. cbn [with_all with_resv sm_all].
        by rewrite lookup_insert.
      * unfold put. cbn [with_all with_resv sm_all].
        rewrite lookup_insert_ne by done. by apply HL.
    + apply can_proceed_refused in Ec as ->. by apply (Link_same s).
    + done.
  - destruct (sm_all s !! sid) as [x|] eqn:Ex; [|done].
    destruct (ss_try x) eqn:Et; [done| |done].
    by destruct (iv_wait _ HI _ _ cid old since Ex).
  - destruct (sm_all s !! sid) as [x|] eqn:Ex; [|done].
    destruct (ss_try x) eqn:Et; [done| |done].
    by destruct (iv_wait _ HI _ _ cid old since Ex).
  - (* abandon *)
    assert (Hk : Link s (match h !! sid with
      | Some (_, _, false) => delete sid h | _ => h end)).
    { destruct (h !! sid) as [[[c t] []]|]; [done| |done].
      by apply Link_delete. }
    destruct (sm_all s !! sid) as [x|] eqn:Ex; [|exact Hk].
    cbn [fst snd note who].
    eapply (Link_put s _ sid x); [exact Hk|exact Ex|reflexivity|done|done|].
    right. intros c t. destruct (h !! sid) as [[[c' t'] []]|] eqn:Eh.
    + congruence.
    + by rewrite lookup_delete.
    + congruence.
  - destruct (sm_all s !! sid) as [x|] eqn:Ex; [|done].
    destruct (ss_cid x) as [cid|] eqn:Ecid; [|done].
    destruct (bool_decide (ss_state x = Provisional)) eqn:Eb; [|done].
    destruct (sm_prov s !! ss_addr x); [|done]. cbn [fst snd note who].
    eapply (Link_put s _ sid x); [done|exact Ex|reflexivity|done|done|].
    by left.
  - destruct (sm_all s !! sid) as [x|] eqn:Ex; [|done].
    destruct (ss_cid x) as [cid|] eqn:Ecid; [|done].
    destruct (bool_decide (ss_state x = Upgraded)) eqn:Eb; [|done].
    cbn [fst snd note who].
    eapply (Link_put s _ sid x); [done|exact Ex|reflexivity|done|done|].
    by left.
  - destruct (sm_all s !! sid) as [x|] eqn:Ex; cbn [fst snd note who].
    + eapply Link_drop; [done|reflexivity].
    + by apply Link_delete.
  - destruct (sm_all s !! sid) as [x|] eqn:Ex; [|by apply Link_delete].
    destruct (bool_decide _); [|by apply Link_delete].
    cbn [fst snd note who]. eapply Link_drop; [done|].
    unfold put. cbn [with_all sm_all].
    destruct (clear_prov_keeps (clear_session s x) x) as [-> _].
    by destruct (clear_session_keeps s x) as [-> _].
  - destruct (sm_all s !! sid) as [x|] eqn:Ex; [|done].
    destruct (bool_decide _); [|done]. cbn [fst snd note who].
    eapply (Link_put s _ sid x); [done|exact Ex|reflexivity|done|done|].
    by left.
  - done.
  - destruct (bool_decide _); done.
Qed.

Lemma calm_run es :
  calm sm0 es →
  Inv (sm_run sm0 es).1 ∧
  Link (sm_run sm0 es).1 (clearances (sm_run sm0 es).2).
Proof.
  induction es as [|e es IH] using rev_ind; intros Hc.
  - split; [apply Inv0|]. intros ???? H. unfold clearances in H.
    cbn [sm_run snd fold_left] in H. by rewrite lookup_empty in H.
  - apply calm_app in Hc as [Hc1 [Hc2 _]].
    destruct (IH Hc1) as [HI HL]. rewrite sm_run_app.
    cbn [fst snd sm_run].
    destruct (sm_step (sm_run sm0 es).1 e) as [s' o] eqn:E. cbn [fst snd].
    rewrite clearances_snoc.
    pose proof (Inv_step _ _ HI Hc2) as H1.
    pose proof (Link_step _ _ _ HI Hc2 HL) as H2.
    rewrite E in H1, H2. done.
Qed.

(** Only these events are answered by a clearance. *)
Lemma step_cleared s e s' cid :
  sm_step s e = (s', OCleared cid) →
  (∃ sid c x, e = ESyn sid c ∧ sm_all s !! sid = Some x ∧
     can_proceed s sid c x = (s', OCleared cid)) ∨
  (∃ sid x c old t, sm_all s !! sid = Some x ∧ ss_try x = TWait c old t).
Proof.
  destruct e as [d|a|sid c|sid|sid|sid|sid|sid|sid|sid|sid|sid|sid|sid|c];
    cbn [sm_step]; try done.
  - destruct (sm_all s !! sid) as [x|] eqn:Ex; [|done].
    match goal with |- (if ?b then _ else _) = _ → _ => destruct b; [|done] end.
    intros H. left. by exists sid, c, x.
  - destruct (sm_all s !! sid) as [x|] eqn:Ex; [|done].
    destruct (ss_try x) eqn:Et; [done| |done]. intros _. right.
    by exists sid, x, cid0, old, since.
  - destruct (sm_all s !! sid) as [x|] eqn:Ex; [|done].
    destruct (ss_try x) eqn:Et; [done| |done]. intros _. right.
    by exists sid, x, cid0, old, since.
  - destruct (sm_all s !! sid) as [x|] eqn:Ex; [|done]. by destruct (ss_try x).
  - destruct (sm_all s !! sid) as [x|] eqn:Ex; [|done]. by destruct (ss_try x).
  - by destruct (sm_all s !! sid) as [x|] eqn:Ex.
  - destruct (sm_all s !! sid) as [x|] eqn:Ex; [|done].
    destruct (ss_cid x); [|done]. destruct (bool_decide _); [|done].
    by destruct (sm_prov s !! ss_addr x).
  - destruct (sm_all s !! sid) as [x|] eqn:Ex; [|done].
    destruct (ss_cid x); [|done]. by destruct (bool_decide _).
  - by destruct (sm_all s !! sid) as [x|] eqn:Ex.
  - destruct (sm_all s !! sid) as [x|] eqn:Ex; [|done].
    by destruct (bool_decide _).
  - destruct (sm_all s !! sid) as [x|] eqn:Ex; [|done].
    by destruct (bool_decide _).
  - by destruct (sm_all s !! sid) as [x|] eqn:Ex.
  - by destruct (bool_decide _).
Qed.

Lemma calm_one_clearance : one_clearance calm.
Proof.
  intros es s h e s' cid Hc Hr Hs sid (t & b & Hh & Hb).
  apply calm_app in Hc as [Hc1 _]. destruct (calm_run _ Hc1) as [HI HL].
  rewrite Hr in HI, HL. cbn [fst snd] in *.
  destruct (HL _ _ _ _ Hh) as (x & Hx & Hst & HB).
  destruct (step_cleared _ _ _ _ Hs)
    as [(sid2 & c & y & -> & Hy & Hp)|(sid2 & y & c & old & t' & Hy & Hw)].
  2:{ by eapply (iv_wait _ HI). }
  apply can_proceed_cleared in Hp as (-> & Hl & Hn & _).
  destruct b.
  - by eapply (lookup_none _ _ _ _ HI Hl Hx).
  - destruct Hb as [?|Hb]; [done|].
    pose proof (purge_fresh _ _ _ (iv_resv _ HI _ _ _ _ Hx HB Hb) Hb).
    congruence.
Qed.

(** ** The replacement of a session *)
Lemma inits_app s es1 es2 :
  distinct_instants s (es1 ++ es2) ↔
  distinct_instants s es1 ∧ distinct_instants (sm_run s es1).1 es2.
Proof.
  revert s. induction es1 as [|e es1 IH]; intros s; simpl; [tauto|].
  rewrite IH. destruct (sm_step s e) as [s1 o] eqn:E. cbn [fst].
  destruct (sm_run s1 es1) as [a b]. cbn [fst]. tauto.
Qed.

(** The sessions of a state are those of the one before, with the same
    instants; only an accepted connection adds one. *)
Definition same_inits (s s' : mgr) : Prop :=
  ∀ sid x', sm_all s' !! sid = Some x' →
    ∃ x, sm_all s !! sid = Some x ∧ ss_init x = ss_init x'.

Lemma same_inits_refl s : same_inits s s.
Proof. intros sid x H. by exists x. Qed.

Lemma same_inits_all s s' : sm_all s' = sm_all s → same_inits s s'.
Proof. intros E sid x H. rewrite E in H. by exists x. Qed.

Lemma same_inits_put s s' sid x y :
  sm_all s !! sid = Some x → ss_init y = ss_init x →
  sm_all s' = <[sid := y]> (sm_all s) → same_inits s s'.
Proof.
  intros Hx Hi E sid' z Hz. rewrite E in Hz.
  apply lookup_insert_Some in Hz as [[<- <-]|[_ Hz]]; [by exists x|by exists z].
Qed.

Lemma can_proceed_inits s sid cid x :
  sm_all s !! sid = Some x → same_inits s (can_proceed s sid cid x).1.
Proof.
  intros Hx. unfold can_proceed.
  destruct (lookup_cid _ cid) as [old|].
  - destruct (sm_all (with_resv (purge s) s) !! old) as [o|] eqn:Eo;
      [|by apply same_inits_all].
    cbn [with_resv sm_all] in Eo.
    destruct (bool_decide _); [|by apply same_inits_all].
    destruct (ss_listener o); [by apply same_inits_all|].
    intros sid' z Hz. unfold put in Hz.
    cbn [fst with_all with_resv sm_all] in Hz.
    apply lookup_insert_Some in Hz as [[<- <-]|[_ Hz]]; [by exists x|].
    apply lookup_insert_Some in Hz as [[<- <-]|[_ Hz]]; [by exists o|].
    by exists z.
  - destruct (sm_resv _ !! cid); [by apply same_inits_all|].
    eapply (same_inits_put _ _ sid x); [done| |reflexivity]. done.
Qed.

Lemma step_inits s e :
  (∀ a, e ≠ EOpen a) → same_inits s (sm_step s e).1.
Proof.
  intros Hne. destruct e as [d|a|sid cid|sid|sid|sid|sid|sid|sid|sid|sid
    |sid|sid|sid|cid]; cbn [sm_step]; try (by destruct (Hne a)).
  - by apply same_inits_all.
  - destruct (sm_all s !! sid) as [x|] eqn:Ex; [|apply same_inits_refl].
    match goal with |- context [if ?b then _ else _] =>
      destruct b; [|apply same_inits_refl] end.
    by apply can_proceed_inits.
  - destruct (sm_all s !! sid) as [x|] eqn:Ex; [|apply same_inits_refl].
    destruct (ss_try x) eqn:Et; try apply same_inits_refl.
    destruct (sm_all s !! old); [|apply same_inits_refl].
    destruct (bool_decide _); [|apply same_inits_refl].
    eapply (same_inits_put _ _ sid x); [done| |reflexivity]; done.
  - destruct (sm_all s !! sid) as [x|] eqn:Ex; [|apply same_inits_refl].
    destruct (ss_try x) eqn:Et; try apply same_inits_refl.
    destruct (_ <=? _); [|apply same_inits_refl].
    eapply (same_inits_put _ _ sid x); [done| |reflexivity]; done.
  - destruct (sm_all s !! sid) as [x|] eqn:Ex; [|apply same_inits_refl].
    destruct (ss_try x) eqn:Et; try apply same_inits_refl.
    eapply (same_inits_put _ _ sid x); [done| |reflexivity]; done.
  - destruct (sm_all s !! sid) as [x|] eqn:Ex; [|apply same_inits_refl].
    destruct (ss_try x) eqn:Et; try apply same_inits_refl.
    eapply (same_inits_put _ _ sid x); [done| |reflexivity]; done.
  - destruct (sm_all s !! sid) as [x|] eqn:Ex; [|apply same_inits_refl].
    eapply (same_inits_put _ _ sid x); [done| |reflexivity]; done.
  - destruct (sm_all s !! sid) as [x|] eqn:Ex; [|apply same_inits_refl].
    destruct (ss_cid x); [|apply same_inits_refl].
    destruct (bool_decide _); [|apply same_inits_refl].
    destruct (sm_prov s !! ss_addr x); [|apply same_inits_refl].
    eapply (same_inits_put _ _ sid x); [done| |reflexivity]; done.
  - destruct (sm_all s !! sid) as [x|] eqn:Ex; [|apply same_inits_refl].
    destruct (ss_cid x); [|apply same_inits_refl].
    destruct (bool_decide _); [|apply same_inits_refl].
    eapply (same_inits_put _ _ sid x); [done| |reflexivity]; done.
  - destruct (sm_all s !! sid) as [x|] eqn:Ex; [|apply same_inits_refl].
    eapply (same_inits_put _ _ sid x); [done| |reflexivity]; done.
  - destruct (sm_all s !! sid) as [x|] eqn:Ex; [|apply same_inits_refl].
    destruct (bool_decide _); [|apply same_inits_refl].
    eapply (same_inits_put _ _ sid x); [done| |].
    2:{ unfold put. cbn [fst with_all sm_all].
        destruct (clear_prov_keeps (clear_session s x) x) as [-> _].
        destruct (clear_session_keeps s x) as [-> _]. reflexivity. }
    done.
  - destruct (sm_all s !! sid) as [x|] eqn:Ex; [|apply same_inits_refl].
    destruct (bool_decide _); [|apply same_inits_refl].
    eapply (same_inits_put _ _ sid x); [done| |reflexivity]; done.
  - destruct (sm_all s !! sid) as [x|] eqn:Ex; [|apply same_inits_refl].
    apply same_inits_all. apply clear_prov_keeps.
  - destruct (bool_decide _); by apply same_inits_all.
Qed.

Lemma instants_differ es :
  distinct_instants sm0 es → inits_differ (sm_run sm0 es).1.
Proof.
  induction es as [|e es IH] using rev_ind; intros Hd.
  - intros s1 s2 x1 x2 H. cbn [sm_run fst sm0 sm_all] in H.
    by rewrite lookup_empty in H.
  - apply inits_app in Hd as [H1 [H2 _]]. specialize (IH H1).
    rewrite sm_run_app. cbn [fst sm_run].
    set (s := (sm_run sm0 es).1) in *.
    replace ((let '(s', o) := sm_step s e in (s', [(sm_now s, e, o)])).1)
      with (sm_step s e).1 by (by destruct (sm_step s e)).
    assert (Hcase : (∃ a, e = EOpen a) ∨ ∀ a, e ≠ EOpen a).
    { destruct e; try (right; done). left. eauto. }
    destruct Hcase as [[a ->]|Hne].
    + cbn [sm_step fst]. intros s1 s2 x1 x2. cbn [sm_all].
      intros [[<- <-]|[? K1]]%lookup_insert_Some
        [[<- <-]|[? K2]]%lookup_insert_Some; cbn [ss_init]; intros E.
      * done.
      * by destruct (H2 _ _ K2).
      * by destruct (H2 _ _ K1).
      * by eapply IH.
    + pose proof (step_inits s e Hne) as Hs.
      intros s1 s2 x1 x2 K1 K2 E.
      destruct (Hs _ _ K1) as (y1 & L1 & E1).
      destruct (Hs _ _ K2) as (y2 & L2 & E2).
      eapply (IH _ _ _ _ L1 L2). congruence.
Qed.

(** The events of the end of session [sid]. *)
Definition ends_session (sid : N) (e : sm_event) : Prop :=
  match e with
  | EDisc s | EClear s | EDone s | EAbandon s | ERegFail s => s = sid
  | ETask _ => True
  | _ => False
  end.

Lemma end_keeps s sid e other :
  inits_differ s → ends_session sid e → other ≠ sid →
  (∀ cid, sm_sessions s !! cid = Some other →
     sm_sessions (sm_step s e).1 !! cid = Some other) ∧
  (∀ a, sm_prov s !! a = Some other →
     sm_prov (sm_step s e).1 !! a = Some other).
Proof.
  intros Hd He Hne. destruct e as [d|a|s' cid|s'|s'|s'|s'|s'|s'|s'|s'|s'|s'|s'
    |cid]; cbn [ends_session] in He; try done; subst; cbn [sm_step].
  - destruct (sm_all s !! sid) as [x|] eqn:Ex; done.
  - destruct (sm_all s !! sid) as [x|] eqn:Ex; done.
  - destruct (sm_all s !! sid) as [x|] eqn:Ex; [|done].
    destruct (bool_decide _); [|done].
    unfold put. cbn [fst with_all sm_sessions sm_prov].
    destruct (clear_session_keeps s x) as (K1 & K2 & K3 & _).
    destruct (clear_prov_keeps (clear_session s x) x) as (L1 & L2 & L3 & _).
    split.
    + intros cid H. rewrite L3. by apply (clear_session_other _ sid).
    + intros a H. apply (clear_prov_other _ sid); [by unfold inits_differ;
        rewrite K1|by rewrite K1|done|by rewrite K3].
  - destruct (sm_all s !! sid) as [x|] eqn:Ex; [|done].
    by destruct (bool_decide _).
  - destruct (sm_all s !! sid) as [x|] eqn:Ex; [|done].
    destruct (clear_prov_keeps s x) as (L1 & L2 & L3 & _). cbn [fst]. split.
    + intros cid H. by rewrite L3.
    + intros a H. by apply (clear_prov_other _ sid).
  - by destruct (bool_decide _).
Qed.

Lemma ends_keep s sid es other :
  inits_differ s → Forall (ends_session sid) es → other ≠ sid →
  (∀ cid, sm_sessions s !! cid = Some other →
     sm_sessions (sm_run s es).1 !! cid = Some other) ∧
  (∀ a, sm_prov s !! a = Some other →
     sm_prov (sm_run s es).1 !! a = Some other).
Proof.
  revert s. induction es as [|e es IH]; intros s Hd Hf Hne; [done|].
  apply Forall_cons in Hf as [He Hf]. cbn [sm_run].
  destruct (end_keeps s sid e other Hd He Hne) as [H1 H2].
  destruct (sm_step s e) as [s1 o] eqn:E. cbn [fst] in *.
  assert (Hd1 : inits_differ s1).
  { intros t1 t2 x1 x2 K1 K2 Ei.
    assert (Hs : same_inits s s1).
    { replace s1 with (sm_step s e).1 by (by rewrite E). apply step_inits.
      intros a ->. done. }
    destruct (Hs _ _ K1) as (y1 & L1 & E1).
    destruct (Hs _ _ K2) as (y2 & L2 & E2).
    eapply (Hd _ _ _ _ L1 L2). congruence. }
  destruct (IH s1 Hd1 Hf Hne) as [K1 K2].
  destruct (sm_run s1 es) as [s2 h2]. cbn [fst] in *. split; auto.
Qed.

(** ** Connected accounts and the peer layer *)
Lemma settled_app s es1 es2 :
  settled s (es1 ++ es2) ↔ settled s es1 ∧ settled (sm_run s es1).1 es2.
Proof.
  revert s. induction es1 as [|e es1 IH]; intros s; simpl; [tauto|].
  rewrite IH. destruct (sm_step s e) as [s1 o] eqn:E. cbn [fst].
  destruct (sm_run s1 es1) as [a b]. cbn [fst]. tauto.
Qed.

Record Known (s : mgr) : Prop := {
  kn_phase : ∀ sid x, sm_all s !! sid = Some x → ss_phase x ≠ Running →
    ss_state x = Disconnecting;
  kn_layer : ∀ sid x cid, sm_all s !! sid = Some x →
    ss_state x = Connected → ss_cid x = Some cid →
    cid ∈ sm_layer s ∧ cid ∉ sm_tasks s ∧
    ∀ sid' y, sid' ≠ sid → sm_all s !! sid' = Some y →
      ss_cid y = Some cid → ss_phase y = Gone
}.

(** One session changes, but neither its account nor, except to
    [Disconnecting], its state; the peer layer stays as it is. *)
Lemma Known_put s s' sid x y :
  Known s → sm_all s !! sid = Some x →
  sm_all s' = <[sid := y]> (sm_all s) →
  sm_layer s' = sm_layer s → sm_tasks s' = sm_tasks s →
  ss_cid y = ss_cid x →
  (ss_state y = ss_state x ∨ ss_state y = Disconnecting ∨
     (ss_state y = Upgraded ∧ ss_state x = Provisional)) →
  (ss_phase y = ss_phase x ∨ (ss_phase x ≠ Gone ∧ ss_state y = Disconnecting)) →
  Known s'.
Proof.
  intros HK Hx E El Et Hc Hs Hp. split.
  - intros sid' z Hz Hph. rewrite E in Hz.
    apply lookup_insert_Some in Hz as [[<- <-]|[_ Hz]];
      [|by eapply (kn_phase _ HK)].
    destruct Hp as [Hp|[_ ?]]; [|done].
    rewrite Hp in Hph. pose proof (kn_phase _ HK _ _ Hx Hph).
    destruct Hs as [-> |[?|[_ ?]]]; [done|done|congruence].
  - intros sid' z cid Hz Hst Hcid. rewrite E, El, Et in *.
    assert (Ho : ∃ z0, sm_all s !! sid' = Some z0 ∧ ss_state z0 = Connected ∧
      ss_cid z0 = Some cid).
    { apply lookup_insert_Some in Hz as [[<- <-]|[_ Hz]]; [|by exists z].
      exists x. split; [done|]. split; [|congruence].
      destruct Hs as [<- |[?|[? ?]]]; [done|congruence|congruence]. }
    destruct Ho as (z0 & Hz0 & Hst0 & Hc0).
    destruct (kn_layer _ HK _ _ _ Hz0 Hst0 Hc0) as (K1 & K2 & K3).
    split_and!; [done|done|]. intros s2 w Hne Hw Hwc.
    apply lookup_insert_Some in Hw as [[<- <-]|[_ Hw]]; [|by eapply K3].
    pose proof (K3 _ x Hne Hx ltac:(congruence)) as Hg.
    destruct Hp as [-> |[? _]]; done.
Qed.

Lemma Known_same s s' :
  Known s → sm_all s' = sm_all s → sm_layer s' = sm_layer s →
  sm_tasks s' = sm_tasks s → Known s'.
Proof.
  intros [K1 K2] E1 E2 E3. split; rewrite E1; [done|]. by rewrite E2, E3.
Qed.

Lemma remove1_sub c l a : a ∈ remove1 c l → a ∈ l.
Proof.
  induction l as [|b l IH]; cbn [remove1]; [done|].
  destruct (bool_decide (b = c)).
  - intros H. by apply elem_of_list_further.
  - intros [-> |H]%elem_of_cons; [apply elem_of_list_here|].
    apply elem_of_list_further. auto.
Qed.

Lemma Known_commit s sid x cid t :
  Inv s → Known s → sm_all s !! sid = Some x → ss_try x = TClear cid t →
  sm_now s < t + TTL →
  Known (put sid (with_try TNone (with_cid cid x))
           (with_resv (delete cid (sm_resv s)) s)).
Proof.
  intros HI HK Ex Et Hn. unfold put.
  split; cbn [with_all with_resv sm_all sm_layer sm_tasks].
  - intros sid' z [[<- <-]|[_ Hz]]%lookup_insert_Some;
      cbn [with_try with_cid ss_phase ss_state]; by eapply (kn_phase _ HK).
  - intros sid' z c [[<- <-]|[Hne Hz]]%lookup_insert_Some;
      cbn [with_try with_cid ss_phase ss_state ss_cid].
    + intros Hst. exfalso.
      destruct (iv_sess _ HI _ _ Ex (or_intror Hst)) as (? & ? & _).
      pose proof (iv_nocid _ HI _ _ _ _ Ex Et). congruence.
    + intros Hst Hc. destruct (kn_layer _ HK _ _ _ Hz Hst Hc) as (K1 & K2 & K3).
      split_and!; [done|done|].
      intros s2 w Hne2 [[<- <-]|[_ Hw]]%lookup_insert_Some; [|by eapply K3].
      cbn [with_try with_cid ss_cid]. intros [= ->]. exfalso.
      eapply (iv_try2 _ HI _ _ _ _ c Ex Hz); [by exists t|].
      split; [done|]. by rewrite Hst.
Qed.

Lemma Known_step s e :
  Inv s → Known s → calm_ev s e → settled s [e] → Known (sm_step s e).1.
Proof.
  intros HI HK Hc [Hs _]. destruct e as [d|a|sid cid|sid|sid|sid|sid|sid|sid|sid
    |sid|sid|sid|sid|cid]; cbn [sm_step].
  - by apply (Known_same s).
  - cbn [fst]. split; cbn [sm_all sm_layer sm_tasks].
    + intros sid x [[<- <-]|[_ Hx]]%lookup_insert_Some; [done|].
      by eapply (kn_phase _ HK).
    + intros sid x c [[<- <-]|[_ Hx]]%lookup_insert_Some; [done|]. intros Hst Hc'.
      destruct (kn_layer _ HK _ _ _ Hx Hst Hc') as (K1 & K2 & K3).
      split_and!; [done|done|].
      intros s2 w Hne2 [[<- <-]|[_ Hw]]%lookup_insert_Some; [done|by eapply K3].
  - destruct Hc as [H1 H2]. cbn [sm_step] in H2.
    destruct (sm_all s !! sid) as [x|] eqn:Ex; [|done].
    destruct (bool_decide (ss_try x = TNone)
      && bool_decide (ss_state x ≠ Connected)
      && bool_decide (ss_state x ≠ Disconnecting)) eqn:Eb; [|done].
    destruct (can_proceed s sid cid x) as [s' o] eqn:Ec. cbn [fst snd] in *.
    destruct o as [|c| |].
    + pose proof (can_proceed_out s sid cid x). by rewrite Ec in H.
    + apply can_proceed_cleared in Ec as (-> & Hl & Hp & ->).
      eapply (Known_put s _ sid x); [done|done|reflexivity|done|done|done|
        by left|by left].
    + apply can_proceed_refused in Ec as ->. by apply (Known_same s).
    + done.
  - destruct (sm_all s !! sid) as [x|] eqn:Ex; [|done].
    destruct (ss_try x) eqn:Et; [done| |done].
    by destruct (iv_wait _ HI _ _ cid old since Ex).
  - destruct (sm_all s !! sid) as [x|] eqn:Ex; [|done].
    destruct (ss_try x) eqn:Et; [done| |done].
    by destruct (iv_wait _ HI _ _ cid old since Ex).
  - destruct (sm_all s !! sid) as [x|] eqn:Ex; [|done].
    destruct (ss_try x) eqn:Et; [done|done|]. cbn [fst].
    eapply Known_commit; eauto.
  - destruct (sm_all s !! sid) as [x|] eqn:Ex; [|done].
    destruct (ss_try x) eqn:Et; [done|done|]. cbn [fst].
    eapply (Known_put s _ sid x); [done|done|reflexivity|done|done|done|
      by left|by left].
  - destruct (sm_all s !! sid) as [x|] eqn:Ex; [|done]. cbn [fst].
    eapply (Known_put s _ sid x); [done|done|reflexivity|done|done|done|
      by left|by left].
  - destruct (sm_all s !! sid) as [x|] eqn:Ex; [|done].
    destruct (ss_cid x) as [cid|] eqn:Ecid; [|done].
    destruct (bool_decide (ss_state x = Provisional)) eqn:Eb; [|done].
    apply bool_decide_eq_true in Eb.
    destruct (sm_prov s !! ss_addr x); [|done]. cbn [fst].
    eapply (Known_put s _ sid x); [done|done|reflexivity|done|done|done|
      |by left]. right. by right.
  - cbn [settled] in Hs.
    destruct (sm_all s !! sid) as [x|] eqn:Ex; [|done].
    destruct (ss_cid x) as [cid|] eqn:Ecid; [|done].
    destruct (bool_decide (ss_state x = Upgraded)) eqn:Eb; [|done].
    apply bool_decide_eq_true in Eb. cbn [fst].
    destruct (Hs _ _ eq_refl Ecid) as [Hs1 Hs2].
    unfold put. split; cbn [with_all with_layer sm_all sm_layer sm_tasks].
    + intros sid' z [[<- <-]|[_ Hz]]%lookup_insert_Some;
        [|by eapply (kn_phase _ HK)].
      cbn [with_state ss_phase ss_state]. intros Hph.
      pose proof (kn_phase _ HK _ _ Ex Hph). congruence.
    + intros sid' z c [[<- <-]|[Hne Hz]]%lookup_insert_Some.
      * cbn [with_state ss_cid]. intros _ Hc'.
        assert (c = cid) as -> by congruence.
        split_and!; [set_solver|done|].
        intros s2 w Hne2 [[<- <-]|[_ Hw]]%lookup_insert_Some; [done|].
        by eapply Hs2.
      * intros Hst Hc'.
        destruct (kn_layer _ HK _ _ _ Hz Hst Hc') as (K1 & K2 & K3).
        split_and!; [set_solver|done|].
        intros s2 w Hne2 [[<- <-]|[_ Hw]]%lookup_insert_Some; [|by eapply K3].
        cbn [with_state ss_cid ss_phase]. by eapply K3.
  - destruct (sm_all s !! sid) as [x|] eqn:Ex; [|done]. cbn [fst].
    eapply (Known_put s _ sid x); [done|done|reflexivity|done|done|done|
      by right; left|by left].
  - destruct (sm_all s !! sid) as [x|] eqn:Ex; [|done].
    destruct (bool_decide (ss_phase x = Running)) eqn:Eb; [|done].
    apply bool_decide_eq_true in Eb. cbn [fst].
    destruct (clear_session_keeps s x) as (K1 & _ & _ & _ & _ & K6 & K7).
    destruct (clear_prov_keeps (clear_session s x) x)
      as (L1 & _ & _ & _ & _ & L6 & L7).
    apply (Known_put s _ sid x
             (with_phase Cleared (with_state Disconnecting x))); auto.
    + unfold put. cbn [with_all sm_all]. by rewrite L1, K1.
    + unfold put. cbn [with_all sm_layer]. by rewrite L6, K6.
    + unfold put. cbn [with_all sm_tasks]. by rewrite L7, K7.
    + right. by rewrite Eb.
  - destruct (sm_all s !! sid) as [x|] eqn:Ex; [|done].
    destruct (bool_decide (ss_phase x = Cleared)) eqn:Eb; [|done].
    apply bool_decide_eq_true in Eb. cbn [fst].
    assert (Hxs : ss_state x = Disconnecting).
    { apply (kn_phase _ HK _ _ Ex). by rewrite Eb. }
    unfold put. split; cbn [with_all with_tasks sm_all sm_layer sm_tasks].
    + intros sid' z [[<- <-]|[_ Hz]]%lookup_insert_Some;
        [done|by eapply (kn_phase _ HK)].
    + intros sid' z c [[<- <-]|[Hne Hz]]%lookup_insert_Some.
      * cbn [with_phase with_listener ss_state]. congruence.
      * intros Hst Hc'.
        destruct (kn_layer _ HK _ _ _ Hz Hst Hc') as (K1 & K2 & K3).
        split_and!; [done| |].
        -- destruct (ss_cid x) as [c'|] eqn:Ec'; [|done].
           intros [?|Hin]%elem_of_app; [done|].
           apply elem_of_list_singleton in Hin as <-.
           pose proof (K3 sid x Hne Ex Ec'). congruence.
        -- intros s2 w Hne2 [[<- <-]|[_ Hw]]%lookup_insert_Some; [done|].
           by eapply K3.
  - done.
  - destruct (bool_decide (cid ∈ sm_tasks s)) eqn:Eb; [|done].
    apply bool_decide_eq_true in Eb. cbn [fst].
    split; cbn [with_layer with_tasks sm_all sm_layer sm_tasks].
    + apply (kn_phase _ HK).
    + intros sid x c Hx Hst Hc'.
      destruct (kn_layer _ HK _ _ _ Hx Hst Hc') as (K1 & K2 & K3).
      split_and!; [|by intros ?%remove1_sub|done].
      apply elem_of_difference. split; [done|].
      rewrite elem_of_singleton. intros ->. done.
Qed.

Lemma known_run es :
  calm sm0 es → settled sm0 es →
  Known (sm_run sm0 es).1.
Proof.
  induction es as [|e es IH] using rev_ind; intros Hc Hs.
  - split; intros *; cbn [sm_run fst sm0 sm_all]; by rewrite lookup_empty.
  - apply calm_app in Hc as [Hc1 [Hc2 _]].
    apply settled_app in Hs as [Hs1 Hs2].
    destruct (calm_run _ Hc1) as [HI _].
    rewrite sm_run_app. cbn [fst sm_run].
    set (s := (sm_run sm0 es).1) in *.
    replace ((let '(s', o) := sm_step s e in (s', [(sm_now s, e, o)])).1)
      with (sm_step s e).1 by (by destruct (sm_step s e)).
    apply Known_step; auto.
Qed.

(** ** What an attempt that waited is cleared for (C32) *)

(** Where the phase [Gone] and a waiting attempt come from. *)
Definition traced (s : mgr) (e : sm_event) (s' : mgr) : Prop :=
  ∀ sid y, sm_all s' !! sid = Some y →
    (ss_phase y = Gone →
       e = EDone sid ∨ ∃ x, sm_all s !! sid = Some x ∧ ss_phase x = Gone) ∧
    (∀ cid old t, ss_try y = TWait cid old t →
       (e = ESyn sid cid ∧ t = sm_now s ∧ (sm_step s e).2 = OWaits ∧
        lookup_cid s cid = Some old) ∨
       ∃ x, sm_all s !! sid = Some x ∧ ss_try x = TWait cid old t).

Lemma traced_all s e s' : sm_all s' = sm_all s → traced s e s'.
Proof. intros E sid y Hy. rewrite E in Hy. split; [intros H|intros cid old t H]; right; by exists y. Qed.

Lemma traced_put s e s' sid x y :
  sm_all s !! sid = Some x →
  (ss_phase y = Gone → e = EDone sid ∨ ss_phase x = Gone) →
  (∀ cid old t, ss_try y = TWait cid old t →
     (e = ESyn sid cid ∧ t = sm_now s ∧ (sm_step s e).2 = OWaits ∧
      lookup_cid s cid = Some old) ∨ ss_try x = TWait cid old t) →
  sm_all s' = <[sid := y]> (sm_all s) → traced s e s'.
Proof.
  intros Hx Hp Ht E sid' z Hz. rewrite E in Hz.
  apply lookup_insert_Some in Hz as [[<- <-]|[_ Hz]].
  - split; [intros H; destruct (Hp H) as [H1|H1]; [by left|right; by exists x]|].
    intros cid old t H. destruct (Ht cid old t H) as [H1|H1]; [by left|right; by exists x].
  - split; [intros H|intros cid old t H]; right; by exists z.
Qed.

Lemma step_traced s e : traced s e (sm_step s e).1.
Proof.
  destruct e as [d|a|sid cid|sid|sid|sid|sid|sid|sid|sid|sid
    |sid|sid|sid|cid].
  - by apply traced_all.
  - intros sid y Hy. cbn [sm_step fst sm_all] in Hy.
    apply lookup_insert_Some in Hy as [[<- <-]|[_ Hy]]; [done|].
    split; [intros H|intros cid old t H]; right; by exists y.
  - destruct (sm_all s !! sid) as [x|] eqn:Ex;
      [|apply traced_all; cbn [sm_step]; by rewrite Ex].
    assert (Ha : sm_step s (ESyn sid cid) = (s, ONone) ∨
                 sm_step s (ESyn sid cid) = can_proceed s sid cid x).
    { cbn [sm_step]. rewrite Ex. destruct (_ && _ && _); tauto. }
    destruct Ha as [Ha|Ha]; [rewrite Ha; by apply traced_all|].
    unfold traced. rewrite Ha. clear Ha. unfold can_proceed.
    pose proof (lookup_cid_ext s (with_resv (purge s) s) cid eq_refl eq_refl eq_refl) as E0.
    destruct (lookup_cid (with_resv _ _) cid) as [old|] eqn:El.
    + destruct (sm_all (with_resv (purge s) s) !! old) as [o|] eqn:Eo;
        [|intros sid' z Hz; cbn [fst with_resv sm_all] in Hz; split; [intros H|intros cid' old' t H]; right; by exists z].
      cbn [with_resv sm_all] in Eo.
      destruct (bool_decide _); [|intros sid' z Hz; cbn [fst with_resv sm_all] in Hz; split; [intros H|intros cid' old' t H]; right; by exists z].
      destruct (ss_listener o); [intros sid' z Hz; cbn [fst with_resv sm_all] in Hz; split; [intros H|intros cid' old' t H]; right; by exists z|].
      intros sid' z Hz. unfold put in Hz.
      cbn [fst with_all with_resv sm_all] in Hz.
      apply lookup_insert_Some in Hz as [[<- <-]|[_ Hz]].
      * split; [intros H; right; by exists x|].
        intros cid' old' t [= <- <- <-]. by left.
      * apply lookup_insert_Some in Hz as [[<- <-]|[_ Hz]].
        -- split; [intros H; right; by exists o|]. intros cid' old' t H. right. by exists o.
        -- split; [intros H|intros cid' old' t H]; right; by exists z.
    + destruct (sm_resv _ !! cid); [intros sid' z Hz; cbn [fst with_resv sm_all] in Hz; split; [intros H|intros cid' old' t H]; right; by exists z|].
      intros sid' z Hz. unfold put in Hz.
      cbn [fst with_all with_resv sm_all] in Hz.
      apply lookup_insert_Some in Hz as [[<- <-]|[_ Hz]].
      * split; [intros H; right; by exists x|done].
      * split; [intros H|intros cid' old' t H]; right; by exists z.
  - cbn [sm_step]. destruct (sm_all s !! sid) as [x|] eqn:Ex; [|by apply traced_all].
    destruct (ss_try x) eqn:Et; try by apply traced_all.
    destruct (sm_all s !! old); [|by apply traced_all].
    destruct (bool_decide _); [|by apply traced_all].
    eapply (traced_put _ _ _ sid x); [done| | |reflexivity]; [by right|done].
  - cbn [sm_step]. destruct (sm_all s !! sid) as [x|] eqn:Ex; [|by apply traced_all].
    destruct (ss_try x) eqn:Et; try by apply traced_all.
    destruct (_ <=? _); [|by apply traced_all].
    eapply (traced_put _ _ _ sid x); [done| | |reflexivity]; [by right|done].
  - cbn [sm_step]. destruct (sm_all s !! sid) as [x|] eqn:Ex; [|by apply traced_all].
    destruct (ss_try x) eqn:Et; try by apply traced_all.
    eapply (traced_put _ _ _ sid x); [done| | |reflexivity]; [by right|done].
  - cbn [sm_step]. destruct (sm_all s !! sid) as [x|] eqn:Ex; [|by apply traced_all].
    destruct (ss_try x) eqn:Et; try by apply traced_all.
    eapply (traced_put _ _ _ sid x); [done| | |reflexivity]; [by right|done].
  - cbn [sm_step]. destruct (sm_all s !! sid) as [x|] eqn:Ex; [|by apply traced_all].
    eapply (traced_put _ _ _ sid x); [done| | |reflexivity]; [by right|done].
  - cbn [sm_step]. destruct (sm_all s !! sid) as [x|] eqn:Ex; [|by apply traced_all].
    destruct (ss_cid x); [|by apply traced_all].
    destruct (bool_decide _); [|by apply traced_all].
    destruct (sm_prov s !! ss_addr x); [|by apply traced_all].
    eapply (traced_put _ _ _ sid x); [done| | |reflexivity]; [by right|by right].
  - cbn [sm_step]. destruct (sm_all s !! sid) as [x|] eqn:Ex; [|by apply traced_all].
    destruct (ss_cid x); [|by apply traced_all].
    destruct (bool_decide _); [|by apply traced_all].
    eapply (traced_put _ _ _ sid x); [done| | |reflexivity]; [by right|by right].
  - cbn [sm_step]. destruct (sm_all s !! sid) as [x|] eqn:Ex; [|by apply traced_all].
    eapply (traced_put _ _ _ sid x); [done| | |reflexivity]; [by right|by right].
  - cbn [sm_step]. destruct (sm_all s !! sid) as [x|] eqn:Ex; [|by apply traced_all].
    destruct (bool_decide _); [|by apply traced_all].
    eapply (traced_put _ _ _ sid x); [done| | |].
    3:{ unfold put. cbn [fst with_all sm_all].
        destruct (clear_prov_keeps (clear_session s x) x) as [-> _].
        destruct (clear_session_keeps s x) as [-> _]. reflexivity. }
    1: done. by right.
  - cbn [sm_step]. destruct (sm_all s !! sid) as [x|] eqn:Ex; [|by apply traced_all].
    destruct (bool_decide _); [|by apply traced_all].
    eapply (traced_put _ _ _ sid x); [done| | |reflexivity]; [by left|by right].
  - cbn [sm_step]. destruct (sm_all s !! sid) as [x|] eqn:Ex; [|by apply traced_all].
    apply traced_all. apply clear_prov_keeps.
  - cbn [sm_step]. destruct (bool_decide _); by apply traced_all.
Qed.

Lemma sm_run_snoc1 es e : (sm_run sm0 (es ++ [e])).1 = (sm_step (sm_run sm0 es).1 e).1.
Proof. rewrite sm_run_app. cbn. by destruct (sm_step _ e). Qed.
Lemma run_gone es : ∀ sid y, sm_all (sm_run sm0 es).1 !! sid = Some y →
  ss_phase y = Gone → EDone sid ∈ es.
Proof.
  induction es as [|e es IH] using rev_ind; intros sid y Hy Hp; [by cbn in Hy|].
  rewrite sm_run_snoc1 in Hy. destruct (step_traced _ _ _ _ Hy) as [H _].
  rewrite elem_of_app. destruct (H Hp) as [-> |(x & Hx & Hpx)].
  - right. by apply elem_of_list_singleton.
  - left. by eapply IH.
Qed.

Lemma run_waits es : ∀ sid y cid old t, sm_all (sm_run sm0 es).1 !! sid = Some y →
  ss_try y = TWait cid old t →
  ∃ es1 es2, es = es1 ++ ESyn sid cid :: es2 ∧ t = sm_now (sm_run sm0 es1).1 ∧
    (sm_step (sm_run sm0 es1).1 (ESyn sid cid)).2 = OWaits ∧
    lookup_cid (sm_run sm0 es1).1 cid = Some old.
Proof.
  induction es as [|e es IH] using rev_ind; intros sid y cid old t Hy Ht; [by cbn in Hy|].
  rewrite sm_run_snoc1 in Hy. destruct (step_traced _ _ _ _ Hy) as [_ H].
  destruct (H _ _ _ Ht) as [(-> & Hn & Ho & Hl)|(x & Hx & Htx)].
  - exists es, []. done.
  - destruct (IH _ _ _ _ _ Hx Htx) as (es1 & es2 & -> & H1).
    exists es1, (es2 ++ [e]). split; [by rewrite <- app_assoc|done].
Qed.
