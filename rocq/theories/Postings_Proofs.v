(** Proofs about the tracked requests. *)
From Coq Require Import ZifyBool ZifyNat ZifyN.
From stdpp Require Import prelude gmap.
From Verif Require Import Postings_Model Postings_Spec.
Local Open Scope N_scope.

(** the posting of an account under a ticket *)
Definition at_ {S} (l : layer S) (c t : N) : option (posting S) :=
  match ly_map l !! c with None => None | Some m => m !! t end.

(** every posting has its entry in the delay queue *)
Record keyed {S} (l : layer S) : Prop := mk_keyed {
  ky_entry : ∀ c t p, at_ l c t = Some p → ∃ e, ly_delays l !! po_key p = Some e ∧ de_cid e = c ∧ de_ticket e = t;
  ky_fresh : ∀ k e, ly_delays l !! k = Some e → k < ly_next l }.

Lemma keyed_init {S} : keyed (@layer_init S).
Proof. split; intros ???; by rewrite ?lookup_empty. Qed.

Lemma at_register {S} (l : layer S) c0 c t : at_ (ly_register l c0) c t = at_ l c t.
Proof.
  unfold at_, ly_register. destruct (ly_map l !! c0) eqn:E; [done|]. cbn. destruct (decide (c0 = c)) as [-> |Hn].
  - by rewrite lookup_insert, E, lookup_empty.
  - by rewrite lookup_insert_ne.
Qed.
Lemma at_shutdown {S} (l : layer S) c0 c t : at_ (ly_shutdown l c0) c t = if bool_decide (c0 = c) then None else at_ l c t.
Proof.
  unfold at_, ly_shutdown. cbn. case_bool_decide as Hd.
  - subst. by rewrite lookup_delete.
  - by rewrite lookup_delete_ne.
Qed.
Lemma at_insert {S} (l : layer S) c0 t0 d x c t :
  at_ (ly_insert l c0 t0 d x) c t =
    if bool_decide (c0 = c ∧ t0 = t ∧ is_Some (ly_map l !! c)) then Some (mk_posting x (ly_next l)) else at_ l c t.
Proof.
  unfold at_, ly_insert. destruct (ly_map l !! c0) as [m|] eqn:E; cbn.
  - destruct (decide (c0 = c)) as [-> |Hn].
    + rewrite lookup_insert, E. destruct (decide (t0 = t)) as [-> |Ht].
      * rewrite lookup_insert, bool_decide_true; [done|by eauto].
      * rewrite lookup_insert_ne, bool_decide_false; [done| |done]. by intros (_ & ? & _).
    + rewrite lookup_insert_ne, bool_decide_false; [done| |done]. by intros (? & _).
  - rewrite bool_decide_false; [done|]. intros (-> & _ & [m Hm]). congruence.
Qed.
Lemma take_spec {S} (l l' : layer S) c t p :
  take_posting l c t = Some (l', p) →
  at_ l c t = Some p ∧ ly_delays l' = ly_delays l ∧ ly_next l' = ly_next l ∧ ly_now l' = ly_now l ∧
  ∀ c' t', at_ l' c' t' = if bool_decide (c' = c ∧ t' = t) then None else at_ l c' t'.
Proof.
  unfold take_posting, at_. destruct (ly_map l !! c) as [m|] eqn:E; [|done]. destruct (m !! t) as [q|] eqn:Et; [|done].
  intros [= <- <-]. split; [done|]. do 3 (split; [done|]). intros c' t'. cbn. destruct (decide (c' = c)) as [-> |Hn].
  - rewrite lookup_insert, E. destruct (decide (t' = t)) as [-> |Ht].
    + by rewrite lookup_delete, bool_decide_true.
    + rewrite lookup_delete_ne, bool_decide_false; [done|by intros []|done].
  - rewrite lookup_insert_ne, bool_decide_false; [done|by intros []|done].
Qed.
Lemma take_none {S} (l : layer S) c t : take_posting l c t = None → at_ l c t = None.
Proof. unfold take_posting, at_. destruct (ly_map l !! c) as [m|]; [|done]. by destruct (m !! t). Qed.

(** removing a posting: no panic, and what is left *)
Lemma remove_spec {S} (l : layer S) c t :
  keyed l →
  match at_ l c t with
  | None => ly_remove l c t = Some (l, None)
  | Some p => ∃ l', ly_remove l c t = Some (l', Some (po_sig p)) ∧ keyed l' ∧ ly_now l' = ly_now l ∧
      ly_delays l' = delete (po_key p) (ly_delays l) ∧
      ∀ c' t', at_ l' c' t' = if bool_decide (c' = c ∧ t' = t) then None else at_ l c' t'
  end.
Proof.
  intros [HE HF]. unfold ly_remove. destruct (take_posting l c t) as [[l1 p]|] eqn:E.
  - destruct (take_spec _ _ _ _ _ E) as (Ha & Hd & Hn & Ht & Hat). rewrite Ha.
    destruct (HE _ _ _ Ha) as (e & He & Hc & Ht'). unfold drop_delay. rewrite Hd, He. eexists. split; [done|]. cbn.
    split; [|split; [done|split; [done|exact Hat]]]. split; cbn.
    + intros c' t' p'. change (at_ (mk_layer (ly_map l1) (delete (po_key p) (ly_delays l)) (ly_next l1) (ly_now l1)) c' t') with (at_ l1 c' t').
      rewrite Hat. case_bool_decide as Hb; [done|]. intros Hp. destruct (HE _ _ _ Hp) as (e' & He' & Hc' & Ht'').
      exists e'. rewrite lookup_delete_ne; [done|]. intros Hk. rewrite Hk in He. assert (e' = e) as -> by congruence. apply Hb. split; congruence.
    + intros k e'. rewrite Hn. intros [_ H]%lookup_delete_Some. by eapply HF.
  - by rewrite (take_none _ _ _ E).
Qed.

Lemma purge_list_spec {S} ts (l : layer S) c :
  keyed l → NoDup ts → Forall (λ t, is_Some (at_ l c t)) ts →
  ∃ l' os, purge_list l c ts = Some (l', os) ∧ keyed l' ∧ ly_now l' = ly_now l ∧
    (∀ k e, ly_delays l' !! k = Some e → ly_delays l !! k = Some e) ∧
    (∀ c' t', at_ l' c' t' = if bool_decide (c' = c ∧ t' ∈ ts) then None else at_ l c' t') ∧
    (∀ t p, t ∈ ts → at_ l c t = Some p → ly_delays l' !! po_key p = None) ∧
    os = omap (λ t, p ← at_ l c t; Some (Purged c t (po_sig p))) ts.
Proof.
  revert l. induction ts as [|t ts IH]; intros l HK Hnd Hf.
  - exists l, []. cbn. split_and!; try done. + intros. rewrite bool_decide_false; [done|set_solver]. + set_solver.
  - apply NoDup_cons in Hnd as [Hni Hnd]. apply Forall_cons in Hf as [[p Hp] Hf].
    cbn [purge_list]. pose proof (remove_spec l c t HK) as HR. rewrite Hp in HR. destruct HR as (l1 & E1 & K1 & N1 & D1 & A1). rewrite E1.
    assert (Hat : ∀ t', t' ∈ ts → at_ l1 c t' = at_ l c t').
    { intros t' Ht'. rewrite A1, bool_decide_false; [done|]. intros [_ ->]. done. }
    destruct (IH l1 K1 Hnd) as (l2 & os & E2 & K2 & N2 & D2 & A2 & X2 & ->).
    { rewrite Forall_forall in *. intros t' Ht'. rewrite Hat by done. by apply Hf. }
    rewrite E2. eexists _, _. split; [done|]. split; [done|]. split; [by rewrite N2|]. split; [|split; [|split]].
    + intros k e H. apply D2 in H. rewrite D1 in H. by apply lookup_delete_Some in H as [_ H].
    + intros c' t'. rewrite A2, A1. repeat case_bool_decide; try done; exfalso; set_solver.
    + intros t' p' Hin Hp'. apply elem_of_cons in Hin as [-> |Hin].
      * assert (p' = p) as -> by congruence. destruct (ly_delays l2 !! po_key p) as [e|] eqn:E; [|done]. apply D2 in E. rewrite D1, lookup_delete in E. done.
      * apply (X2 t'); [done|]. by rewrite Hat.
    + cbn. rewrite Hp. cbn. f_equal. clear -Hat. induction ts as [|t' ts IH]; [done|]. cbn. rewrite Hat by set_solver.
      rewrite IH; [done|]. intros. apply Hat. set_solver.
Qed.
Lemma stale_spec {S} (l : layer S) c f t :
  t ∈ stale l c f ↔ ∃ p, at_ l c t = Some p ∧ f (po_sig p) = true.
Proof.
  unfold stale, at_. destruct (ly_map l !! c) as [m|]; [|split; [set_solver|naive_solver]].
  rewrite elem_of_list_fmap. split.
  - intros ([t' p] & -> & H). apply elem_of_map_to_list in H. apply map_filter_lookup_Some in H as [H1 H2]. eauto.
  - intros (p & H1 & H2). exists (t, p). split; [done|]. apply elem_of_map_to_list, map_filter_lookup_Some. done.
Qed.
Lemma stale_nodup {S} (l : layer S) c f : NoDup (stale l c f).
Proof. unfold stale. destruct (ly_map l !! c) as [m|]; [|constructor]. apply NoDup_fst_map_to_list. Qed.
Lemma purge_spec {S} (l : layer S) c f :
  keyed l → ∃ l' os, ly_purge l c f = Some (l', os) ∧ keyed l' ∧ ly_now l' = ly_now l ∧
    (∀ k e, ly_delays l' !! k = Some e → ly_delays l !! k = Some e) ∧
    (∀ c' t', at_ l' c' t' = if bool_decide (c' = c ∧ t' ∈ stale l c f) then None else at_ l c' t') ∧
    (∀ t p, t ∈ stale l c f → at_ l c t = Some p → ly_delays l' !! po_key p = None) ∧
    os = omap (λ t, p ← at_ l c t; Some (Purged c t (po_sig p))) (stale l c f).
Proof.
  intros HK. apply purge_list_spec; [done|apply stale_nodup|]. rewrite Forall_forall. intros t (p & Hp & _)%stale_spec. eauto.
Qed.

(** an entry that is due *)
Lemma expire_spec {S} (l l' : layer S) k o :
  keyed l → ly_expire l k = (l', o) →
  keyed l' ∧ ly_now l' = ly_now l ∧ (∀ k' e, ly_delays l' !! k' = Some e → ly_delays l !! k' = Some e) ∧
  match o with
  | None => ∀ c t, at_ l' c t = at_ l c t
  | Some y => ∃ e p, ly_delays l !! k = Some e ∧ de_due e ≤ ly_now l ∧ ly_delays l' !! k = None ∧
      at_ l (de_cid e) (de_ticket e) = Some p ∧ y = TimedOut (de_cid e) (de_ticket e) (po_sig p) ∧
      ∀ c t, at_ l' c t = if bool_decide (c = de_cid e ∧ t = de_ticket e) then None else at_ l c t
  end.
Proof.
  intros [HE HF]. unfold ly_expire. destruct (ly_delays l !! k) as [e|] eqn:E; [|by intros [= <- <-]].
  destruct (N.leb_spec (de_due e) (ly_now l)) as [Hle|Hgt]; [|by intros [= <- <-]].
  set (l1 := mk_layer (ly_map l) (delete k (ly_delays l)) (ly_next l) (ly_now l)).
  assert (H1 : ∀ c t, at_ l1 c t = at_ l c t) by done.
  destruct (take_posting l1 (de_cid e) (de_ticket e)) as [[l2 p]|] eqn:Et; intros [= <- <-].
  - destruct (take_spec _ _ _ _ _ Et) as (Ha & Hd & Hn & Hw & Hat). rewrite H1 in Ha. setoid_rewrite H1 in Hat.
    split; [split|].
    + intros c t q. rewrite Hat. case_bool_decide as Hb; [done|]. intros Hq. destruct (HE _ _ _ Hq) as (e' & He' & Hc & Ht).
      exists e'. rewrite Hd. cbn. rewrite lookup_delete_ne; [done|]. intros Hk. rewrite <- Hk in He'. apply Hb. assert (e' = e) as -> by congruence. by split.
    + intros k' e'. rewrite Hd, Hn. cbn. intros [_ H]%lookup_delete_Some. by eapply HF.
    + split; [by rewrite Hw|]. split. { intros k' e'. rewrite Hd. cbn. by intros [_ H]%lookup_delete_Some. }
      exists e, p. rewrite Hd. cbn. rewrite lookup_delete. split_and!; auto.
  - apply take_none in Et. rewrite H1 in Et. split; [split|].
    + intros c t q. rewrite H1. intros Hq. destruct (HE _ _ _ Hq) as (e' & He' & Hc & Ht). exists e'. cbn.
      rewrite lookup_delete_ne; [done|]. intros Hk. rewrite <- Hk in He'. assert (e' = e) as -> by congruence. subst. congruence.
    + intros k' e'. cbn. intros [_ H]%lookup_delete_Some. by eapply HF.
    + split; [done|]. split; [|done]. intros k' e'. cbn. by intros [_ H]%lookup_delete_Some.
Qed.

Lemma keyed_insert {S} (l : layer S) c t d x : keyed l → keyed (ly_insert l c t d x).
Proof.
  intros [HE HF].
  assert (HD : ly_delays (ly_insert l c t d x) = <[ly_next l := mk_delay c t (ly_now l + d)]> (ly_delays l)) by (unfold ly_insert; by destruct (ly_map l !! c)).
  assert (HN : ly_next (ly_insert l c t d x) = ly_next l + 1) by (unfold ly_insert; by destruct (ly_map l !! c)).
  split.
  - intros c' t' p. rewrite at_insert. case_bool_decide as Hb.
    + intros [= <-]. destruct Hb as (-> & -> & _). cbn. rewrite HD, lookup_insert. eauto.
    + intros Hp. destruct (HE _ _ _ Hp) as (e & He & Hc & Ht). exists e. rewrite HD, lookup_insert_ne; [done|].
      intros Hk. apply HF in He. lia.
  - intros k e. rewrite HD, HN. intros [[<- _]|[_ H]]%lookup_insert_Some; [lia|]. apply HF in H. lia.
Qed.

(** no panic, and the invariant stays *)
Lemma step_keyed {S} (l : layer S) e : keyed l → ∃ l' os, lstep l e = Some (l', os) ∧ keyed l'.
Proof.
  intros HK. destruct e as [c|c|c t d x|c t|k|c f|d]; cbn [lstep].
  - eexists _, _. split; [done|]. destruct HK as [HE HF]. split.
    + intros c' t' p. rewrite at_register. unfold ly_register. destruct (ly_map l !! c); apply HE.
    + unfold ly_register. destruct (ly_map l !! c); apply HF.
  - eexists _, _. split; [done|]. destruct HK as [HE HF]. split; [|done]. intros c' t' p. rewrite at_shutdown. case_bool_decide; [done|]. apply HE.
  - eexists _, _. split; [done|]. by apply keyed_insert.
  - pose proof (remove_spec l c t HK) as HR. destruct (at_ l c t).
    + destruct HR as (l' & -> & K & _). eauto.
    + rewrite HR. eauto.
  - destruct (ly_expire l k) as [l' o] eqn:E. destruct (expire_spec _ _ _ _ HK E) as [K _]. eauto.
  - destruct (purge_spec l c f HK) as (l' & os & E & K & _). eauto.
  - eexists _, _. split; [done|]. destruct HK as [HE HF]. by split.
Qed.
Lemma run_keyed {S} es (l : layer S) : keyed l → ∃ l' os, lrun l es = Some (l', os) ∧ keyed l'.
Proof.
  revert l. induction es as [|e es IH]; intros l HK; cbn; [eauto|]. destruct (step_keyed l e HK) as (l1 & o1 & -> & K1).
  destruct (IH l1 K1) as (l2 & o2 & -> & K2). eauto.
Qed.

(** *** At most once *)
Section count.
  Context {S : Type} `{EqDecision S}.
  Definition live (c t : N) (x : S) (l : layer S) : nat :=
    match at_ l c t with Some p => if bool_decide (po_sig p = x) then 1 else 0 | None => 0 end.
  Lemma consumed_app c t (x : S) a b : times_consumed c t x (a ++ b) = (times_consumed c t x a + times_consumed c t x b)%nat.
  Proof. unfold times_consumed. by rewrite filter_app, app_length. Qed.

  Lemma consumed_cons c t (x : S) o os :
    times_consumed c t x (o :: os) = ((if is_consumed c t x o then 1 else 0) + times_consumed c t x os)%nat.
  Proof. unfold times_consumed. rewrite filter_cons. by destruct (is_consumed c t x o). Qed.

  Lemma consumed_nil c t (x : S) : times_consumed c t x [] = 0%nat.
  Proof. done. Qed.
  Lemma purged_count c0 c t (x : S) l ts :
    NoDup ts →
    times_consumed c t x (omap (λ t', p ← at_ l c0 t'; Some (Purged c0 t' (po_sig p))) ts) =
      if bool_decide (c = c0 ∧ t ∈ ts) then live c t x l else 0%nat.
  Proof.
    induction ts as [|t0 ts IH]; intros Hnd.
    - cbn. rewrite bool_decide_false; [done|set_solver].
    - apply NoDup_cons in Hnd as [Hni Hnd]. specialize (IH Hnd). cbn [omap list_omap]. unfold live in *.
      destruct (at_ l c0 t0) as [p|] eqn:E; cbn [mbind option_bind].
      + rewrite consumed_cons, IH. cbn [is_consumed]. destruct (decide (c = c0)) as [-> |Hc].
        * destruct (decide (t = t0)) as [-> |Ht].
          -- rewrite (bool_decide_false (c0 = c0 ∧ t0 ∈ ts)) by (intros [_ ?]; done).
             rewrite (bool_decide_true (c0 = c0 ∧ t0 ∈ t0 :: ts)) by set_solver. rewrite E.
             destruct (decide (po_sig p = x)) as [Hx|Hx].
             ++ rewrite (bool_decide_true (c0 = c0 ∧ t0 = t0 ∧ po_sig p = x)) by done. cbn. by rewrite bool_decide_true.
             ++ rewrite (bool_decide_false (c0 = c0 ∧ t0 = t0 ∧ po_sig p = x)) by (by intros (_ & _ & ?)). cbn. by rewrite bool_decide_false.
          -- rewrite (bool_decide_false (c0 = c0 ∧ t0 = t ∧ po_sig p = x)) by (by intros (_ & ? & _)). cbn.
             rewrite (bool_decide_ext (c0 = c0 ∧ t ∈ t0 :: ts) (c0 = c0 ∧ t ∈ ts)); [done|]. rewrite elem_of_cons. naive_solver.
        * rewrite (bool_decide_false (c0 = c ∧ t0 = t ∧ po_sig p = x)) by (by intros (? & _)). cbn.
          rewrite (bool_decide_false (c = c0 ∧ t ∈ ts)), (bool_decide_false (c = c0 ∧ t ∈ t0 :: ts)); [done|by intros [? _]|by intros [? _]].
      + rewrite IH. destruct (decide (c = c0 ∧ t = t0)) as [[-> ->]|Hd].
        * rewrite (bool_decide_false (c0 = c0 ∧ t0 ∈ ts)) by (intros [_ ?]; done). rewrite E. by destruct (bool_decide (c0 = c0 ∧ t0 ∈ t0 :: ts)).
        * rewrite (bool_decide_ext (c = c0 ∧ t ∈ t0 :: ts) (c = c0 ∧ t ∈ ts)); [done|]. rewrite elem_of_cons. naive_solver.
  Qed.

  Lemma step_count l e l' os c t (x : S) :
    keyed l → lstep l e = Some (l', os) → (times_consumed c t x os + live c t x l' ≤ live c t x l + made c t x e)%nat.
  Proof.
    intros HK. destruct e as [c0|c0|c0 t0 d x0|c0 t0|k|c0 f|d]; cbn [lstep made].
    - intros [= <- <-]. unfold live, times_consumed. rewrite at_register. cbn. lia.
    - intros [= <- <-]. unfold live, times_consumed. rewrite at_shutdown. cbn. case_bool_decide; lia.
    - intros [= <- <-]. unfold live, times_consumed. rewrite at_insert. cbn.
      destruct (decide (c0 = c ∧ t0 = t ∧ is_Some (ly_map l !! c))) as [Hd|Hd].
      + rewrite (bool_decide_true _ Hd). destruct Hd as (-> & -> & _). cbn. destruct (decide (x0 = x)) as [-> |Hx].
        * rewrite !bool_decide_true by done. destruct (at_ l c t); [case_bool_decide|]; lia.
        * rewrite bool_decide_false by done. lia.
      + rewrite (bool_decide_false _ Hd). lia.
    - pose proof (remove_spec l c0 t0 HK) as HR. destruct (at_ l c0 t0) as [p|] eqn:E.
      + destruct HR as (l1 & -> & _ & _ & _ & HA). intros [= <- <-]. rewrite consumed_cons, consumed_nil. cbn [is_consumed]. unfold live. rewrite HA.
        destruct (decide (c = c0 ∧ t = t0)) as [[-> ->]|Hd].
        * rewrite (bool_decide_true (c0 = c0 ∧ t0 = t0)) by done. rewrite E. destruct (decide (po_sig p = x)) as [Hx|Hx].
          -- rewrite (bool_decide_true (po_sig p = x)) by done. rewrite (bool_decide_true (c0 = c0 ∧ t0 = t0 ∧ po_sig p = x)) by done. cbn. lia.
          -- rewrite (bool_decide_false (c0 = c0 ∧ t0 = t0 ∧ po_sig p = x)) by (by intros (_ & _ & ?)). cbn. lia.
        * rewrite (bool_decide_false (c = c0 ∧ t = t0)) by done.
          rewrite (bool_decide_false (c0 = c ∧ t0 = t ∧ po_sig p = x)); [cbn; lia|]. intros (-> & -> & _). by apply Hd.
      + rewrite HR. intros [= <- <-]. unfold times_consumed. cbn. lia.
    - destruct (ly_expire l k) as [l1 o] eqn:E. intros [= <- <-]. destruct (expire_spec _ _ _ _ HK E) as (_ & _ & _ & HO).
      destruct o as [y|].
      + destruct HO as (e & p & _ & _ & _ & Hp & -> & HA). rewrite consumed_cons, consumed_nil. cbn [is_consumed]. unfold live. rewrite HA.
        destruct (decide (c = de_cid e ∧ t = de_ticket e)) as [[-> ->]|Hd].
        * rewrite (bool_decide_true (de_cid e = de_cid e ∧ de_ticket e = de_ticket e)) by done. rewrite Hp. destruct (decide (po_sig p = x)) as [Hx|Hx].
          -- rewrite (bool_decide_true (po_sig p = x)) by done. rewrite (bool_decide_true (_ ∧ _ ∧ po_sig p = x)) by done. cbn. lia.
          -- rewrite (bool_decide_false (_ ∧ _ ∧ po_sig p = x)) by (by intros (_ & _ & ?)). cbn. lia.
        * rewrite (bool_decide_false (c = de_cid e ∧ t = de_ticket e)) by done.
          rewrite (bool_decide_false (de_cid e = c ∧ de_ticket e = t ∧ po_sig p = x)); [cbn; lia|]. intros (<- & <- & _). by apply Hd.
      + unfold live, times_consumed. rewrite HO. cbn. lia.
    - destruct (purge_spec l c0 f HK) as (l1 & o1 & -> & _ & _ & _ & HA & _ & ->). intros [= <- <-].
      rewrite purged_count by apply stale_nodup. unfold live at 2. rewrite HA.
      destruct (decide (c = c0 ∧ t ∈ stale l c0 f)) as [Hd|Hd].
      + rewrite !(bool_decide_true _ Hd). lia.
      + rewrite !(bool_decide_false _ Hd). unfold live. lia.
    - intros [= <- <-]. unfold live, times_consumed, at_. cbn. lia.
  Qed.
  Lemma run_count es l l' os c t (x : S) :
    keyed l → lrun l es = Some (l', os) → (times_consumed c t x os + live c t x l' ≤ live c t x l + times_made c t x es)%nat.
  Proof.
    revert l os. induction es as [|e es IH]; intros l os HK; cbn [lrun].
    - intros [= <- <-]. unfold times_consumed, times_made. cbn. lia.
    - destruct (step_keyed l e HK) as (l1 & o1 & E & K1). rewrite E. destruct (lrun l1 es) as [[l2 o2]|] eqn:E2; [|done].
      intros [= <- <-]. pose proof (step_count _ _ _ _ c t x HK E). pose proof (IH _ _ K1 E2). rewrite consumed_app.
      unfold times_made in *. cbn. lia.
  Qed.
End count.

(** *** Not early *)
Record tidy {S} (l : layer S) (op : gset (N * N)) (lat : N → N → option (N * S)) : Prop := mk_tidy {
  ti_open : ∀ k e, ly_delays l !! k = Some e → (de_cid e, de_ticket e) ∈ op;
  ti_one : ∀ k k' e e', ly_delays l !! k = Some e → ly_delays l !! k' = Some e' →
    de_cid e = de_cid e' → de_ticket e = de_ticket e' → k = k';
  ti_due : ∀ k e, ly_delays l !! k = Some e → ∃ x, lat (de_cid e) (de_ticket e) = Some (de_due e, x);
  ti_sig : ∀ c t p, at_ l c t = Some p → ∃ due, lat c t = Some (due, po_sig p) }.

Definition lat_step {S} (now : N) (e : levent S) (lat : N → N → option (N * S)) : N → N → option (N * S) :=
  λ c t, match e with LInsert c' t' d x => if bool_decide (c' = c ∧ t' = t) then Some (now + d, x) else lat c t | _ => lat c t end.
Definition op_step {S} (e : levent S) (os : list (lout S)) (op : gset (N * N)) : gset (N * N) :=
  (match e with LInsert c t _ _ => {[(c, t)]} ∪ op | _ => op end) ∖ list_to_set (concerns <$> os).

Lemma tidy_less {S} (l l' : layer S) op op' lat :
  tidy l op lat → (∀ k e, ly_delays l' !! k = Some e → ly_delays l !! k = Some e ∧ (de_cid e, de_ticket e) ∈ op') →
  (∀ c t p, at_ l' c t = Some p → at_ l c t = Some p) → tidy l' op' lat.
Proof.
  intros [H1 H2 H3 H4] Hd Ha. split.
  - intros k e H. by apply Hd in H as [_ H].
  - intros k k' e e' [H _]%Hd [H' _]%Hd. by apply (H2 k k' e e').
  - intros k e [H _]%Hd. by eapply H3.
  - intros c t p H%Ha. by eapply H4.
Qed.

Lemma step_tidy {S} (l l' : layer S) e os op lat :
  keyed l → tidy l op lat → lstep l e = Some (l', os) → match e with LInsert c t _ _ => (c, t) ∉ op | _ => True end →
  tidy l' (op_step e os op) (lat_step (ly_now l) e lat).
Proof.
  intros HK HT. pose proof HT as [T1 T2 T3 T4].
  destruct e as [c0|c0|c0 t0 d x0|c0 t0|k|c0 f|d]; cbn [lstep].
  - intros [= <- <-] _. eapply tidy_less; [exact HT| |].
    + intros k e H. unfold ly_register in H. assert (H' : ly_delays l !! k = Some e) by (by destruct (ly_map l !! c0)). split; [done|].
      unfold op_step. cbn. rewrite difference_empty_L. by eapply T1.
    + intros c t p. by rewrite at_register.
  - intros [= <- <-] _. eapply tidy_less; [exact HT| |].
    + intros k e H. split; [done|]. unfold op_step. cbn. rewrite difference_empty_L. by eapply T1.
    + intros c t p. rewrite at_shutdown. by case_bool_decide.
  - intros [= <- <-] Hno.
    assert (HD : ly_delays (ly_insert l c0 t0 d x0) = <[ly_next l := mk_delay c0 t0 (ly_now l + d)]> (ly_delays l)) by (unfold ly_insert; by destruct (ly_map l !! c0)).
    assert (Hne : ∀ k e, ly_delays l !! k = Some e → ¬ (de_cid e = c0 ∧ de_ticket e = t0)).
    { intros k e H [<- <-]. apply Hno. by eapply T1. }
    split.
    + intros k e. rewrite HD. unfold op_step. cbn. rewrite difference_empty_L. intros [[_ <-]|[_ H]]%lookup_insert_Some; [set_solver|]. apply T1 in H. set_solver.
    + intros k k' e e'. rewrite HD. intros [[<- <-]|[Hk H]]%lookup_insert_Some [[<- <-]|[Hk' H']]%lookup_insert_Some Hc Ht; cbn in *; [done| | |].
      * destruct (Hne _ _ H'). done.
      * destruct (Hne _ _ H). done.
      * by eapply (T2 k k').
    + intros k e. rewrite HD. unfold lat_step. intros [[_ <-]|[_ H]]%lookup_insert_Some; cbn.
      * rewrite bool_decide_true by done. eauto.
      * rewrite bool_decide_false; [by eapply T3|]. intros [-> ->]. by destruct (Hne _ _ H).
    + intros c t p. rewrite at_insert. unfold lat_step. case_bool_decide as Hb.
      * destruct Hb as (-> & -> & _). intros [= <-]. rewrite bool_decide_true by done. cbn. eauto.
      * intros Hp. destruct (decide (c0 = c ∧ t0 = t)) as [[-> ->]|Hd].
        -- exfalso. apply Hb. split_and!; try done. unfold at_ in Hp. destruct (ly_map l !! c); [eauto|done].
        -- rewrite bool_decide_false by done. by eapply T4.
  - pose proof (remove_spec l c0 t0 HK) as HR. destruct (at_ l c0 t0) as [p|] eqn:E.
    + destruct HR as (l1 & -> & _ & _ & HD & HA). intros [= <- <-] _. eapply tidy_less; [exact HT| |].
      * intros k e. rewrite HD. intros [Hk H]%lookup_delete_Some. split; [done|]. unfold op_step. cbn.
        apply elem_of_difference. split; [by eapply T1|]. rewrite elem_of_union, elem_of_singleton. intros [[= Hc Ht]|?]; [|set_solver].
        apply Hk. destruct (ky_entry _ HK _ _ _ E) as (e' & He' & Hc' & Ht'). eapply (T2 _ _ e' e); try done; congruence.
      * intros c t q. rewrite HA. by case_bool_decide.
    + rewrite HR. intros [= <- <-] _. unfold op_step. cbn. by rewrite difference_empty_L.
  - destruct (ly_expire l k) as [l1 o] eqn:E. intros [= <- <-] _. destruct (expire_spec _ _ _ _ HK E) as (_ & _ & HD & HO).
    destruct o as [y|].
    + destruct HO as (e & p & He & _ & Hk & Hp & -> & HA). eapply tidy_less; [exact HT| |].
      * intros k' e' H. pose proof (HD _ _ H) as H'. split; [done|]. unfold op_step. cbn.
        apply elem_of_difference. split; [by eapply T1|]. rewrite elem_of_union, elem_of_singleton. intros [[= Hc Ht]|?]; [|set_solver].
        assert (k' = k) as -> by (by eapply (T2 _ _ e' e)). congruence.
      * intros c t q. rewrite HA. by case_bool_decide.
    + eapply tidy_less; [exact HT| |].
      * intros k' e' H. pose proof (HD _ _ H) as H'. split; [done|]. unfold op_step. cbn. rewrite difference_empty_L. by eapply T1.
      * intros c t q. by rewrite HO.
  - destruct (purge_spec l c0 f HK) as (l1 & o1 & -> & _ & _ & HD & HA & HX & ->). intros [= <- <-] _.
    eapply tidy_less; [exact HT| |].
    + intros k e H. pose proof (HD _ _ H) as H'. split; [done|]. unfold op_step. apply elem_of_difference. split; [by eapply T1|].
      rewrite elem_of_list_to_set, elem_of_list_fmap. intros (y & Hy & Hin). apply elem_of_list_omap in Hin as (t & Ht & Hin).
      destruct (at_ l c0 t) as [p|] eqn:Ep; [|done]. cbn in Hin. injection Hin as <-. cbn in Hy. injection Hy as Hc Ht'.
      destruct (ky_entry _ HK _ _ _ Ep) as (e' & He' & Hc' & Ht''). assert (k = po_key p) as -> by (eapply (T2 _ _ e e'); try done; congruence).
      specialize (HX t p Ht Ep). congruence.
    + intros c t q. rewrite HA. by case_bool_decide.
  - intros [= <- <-] _. unfold op_step. cbn. rewrite difference_empty_L. by split.
Qed.
Lemma step_now {S} (l l' : layer S) e os :
  keyed l → lstep l e = Some (l', os) → ly_now l' = match e with LTick d => ly_now l + d | _ => ly_now l end.
Proof.
  intros HK. destruct e as [c0|c0|c0 t0 d x0|c0 t0|k|c0 f|d]; cbn [lstep].
  - intros [= <- <-]. unfold ly_register. by destruct (ly_map l !! c0).
  - by intros [= <- <-].
  - intros [= <- <-]. unfold ly_insert. by destruct (ly_map l !! c0).
  - pose proof (remove_spec l c0 t0 HK) as HR. destruct (at_ l c0 t0).
    + destruct HR as (l1 & -> & _ & Hn & _). by intros [= <- <-].
    + rewrite HR. by intros [= <- <-].
  - destruct (ly_expire l k) as [l1 o] eqn:E. intros [= <- <-]. by destruct (expire_spec _ _ _ _ HK E) as (_ & ? & _).
  - destruct (purge_spec l c0 f HK) as (l1 & o1 & -> & _ & Hn & _). by intros [= <- <-].
  - by intros [= <- <-].
Qed.
Lemma run_tidy {S} es (l l' : layer S) os op lat :
  keyed l → tidy l op lat → careful l op es → lrun l es = Some (l', os) →
  keyed l' ∧ ly_now l' = ly_now l + clock es ∧ ∃ op', tidy l' op' (λ c t, latest c t (ly_now l) es (lat c t)).
Proof.
  revert l os op lat. induction es as [|e es IH]; intros l os op lat HK HT; cbn [lrun careful].
  - intros _ [= <- <-]. cbn. split; [done|]. split; [lia|]. by exists op.
  - destruct (step_keyed l e HK) as (l1 & o1 & E & K1). rewrite E. intros [Hc Hcr]. destruct (lrun l1 es) as [[l2 o2]|] eqn:E2; [|done].
    intros [= <- <-]. pose proof (step_tidy _ _ _ _ _ _ HK HT E Hc) as T1. pose proof (step_now _ _ _ _ HK E) as HN.
    destruct (IH l1 o2 _ _ K1 T1 Hcr E2) as (K2 & N2 & op' & T2). split; [done|]. split.
    + rewrite N2, HN. destruct e; cbn; lia.
    + exists op'. clear -T2 HN. rewrite HN in T2. destruct T2 as [A B C D].
      assert (HL : ∀ c t, latest c t (match e with LTick d => ly_now l + d | _ => ly_now l end) es (lat_step (ly_now l) e lat c t) =
        latest c t (ly_now l) (e :: es) (lat c t)) by (intros; by destruct e).
      split; [done|done| |].
      * intros k e' H. rewrite <- HL. by eapply C.
      * intros c t p H. rewrite <- HL. by eapply D.
Qed.
Lemma tidy_init {S} : tidy (@layer_init S) ∅ (λ _ _, None).
Proof. split; [intros k e|intros k k' e e'|intros k e|intros c t p]; cbn; by rewrite ?lookup_empty. Qed.
