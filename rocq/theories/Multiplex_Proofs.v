From Coq Require Import ZifyBool ZifyNat ZifyN.
From stdpp Require Import prelude gmap.
From Verif Require Import Multiplex_Model Multiplex_Spec.
Local Open Scope N_scope.

Definition ids (n : nat) : list N := N.of_nat <$> seq 1 n.
Definition nops (e : endp) : N := N.of_nat (length (e_ops e)).
Lemma elem_ids n id : id ∈ ids n ↔ 1 <= id <= N.of_nat n.
Proof.
  unfold ids. rewrite elem_of_list_fmap. split.
  - intros (k & -> & Hk%elem_of_seq). lia.
  - intros H. exists (N.to_nat id). split; [lia|]. apply elem_of_seq. lia.
Qed.
Lemma ids_length n : length (ids n) = n.
Proof. unfold ids. by rewrite fmap_length, seq_length. Qed.
Lemma ids_snoc n : ids (S n) = ids n ++ [N.of_nat n + 1].
Proof. unfold ids. rewrite seq_S, fmap_app. cbn. do 2 f_equal. lia. Qed.

(** ** One node *)
Definition phase_ok (r : bool) (e : endp) : Prop :=
  match e_open e with
  | None => e_latest e = nops e ∧ (r = true → e_gen e = N.max 32 (nops e))
  | Some WaitCreate => r = false ∧ e_latest e = nops e ∧ 32 <= nops e
  | Some (WantLock id) => id = nops e + 1 ∧ e_latest e = nops e + 1 ∧ 32 <= nops e ∧ (r = true → e_gen e = nops e + 1)
  | Some (WaitReply id) => r = true ∧ id = nops e + 1 ∧ e_latest e = nops e + 1 ∧ 32 <= nops e ∧ e_gen e = nops e + 1
  end.
Record LI (r : bool) (e : endp) : Prop := {
  li_ops : e_ops e = ids (length (e_ops e));
  li_phase : phase_ok r e;
  li_dom : ∀ id s, e_subs e !! id = Some s → 1 <= id <= N.max 32 (e_latest e) ∧ (s_res s = true ↔ e_latest e < id);
  li_res : ∀ id, e_latest e < id → id <= 32 → ∃ l, e_subs e !! id = Some (mk_sub (Some l) true);
  li_setup : ∀ id, LSetup id ∈ e_lock e → e_open e = Some (WantLock id);
  li_lock : ∀ id, e_open e = Some (WantLock id) → LSetup id ∈ e_lock e;
  li_closing : ∀ id, id ∈ e_spawn e ∨ LClose id ∈ e_lock e → id ∈ e_ops e ∧ ∃ b, e_subs e !! id = Some (mk_sub None b);
  li_nodup : NoDup (e_lock e);
  li_once : ∀ id, id ∈ e_spawn e → LClose id ∉ e_lock e;
  li_drop : ∀ id b, e_subs e !! id = Some (mk_sub None b) → id ∈ e_spawn e ∨ LClose id ∈ e_lock e;
  li_gone : ∀ id, 1 <= id <= N.max 32 (e_latest e) → e_subs e !! id = None → id ∈ e_sig e ∧ id ∈ e_ops e;
  li_rx : ∀ id s, e_subs e !! id = Some s → id ∈ e_rx e ∨ e_open e = Some (WantLock id);
  li_tx : ∀ id, 1 <= id <= N.max 32 (e_latest e) → id ∈ e_tx e ∨ id ∈ e_sig e;
}.

Lemma LI_in_ops r e id : LI r e → id ∈ e_ops e ↔ 1 <= id <= nops e.
Proof. intros H. rewrite (li_ops _ _ H). apply elem_ids. Qed.
Lemma LI_latest r e : LI r e → nops e <= e_latest e <= nops e + 1.
Proof. intros H. pose proof (li_phase _ _ H) as Hp. unfold phase_ok in Hp. repeat case_match; lia. Qed.

Lemma elem_reserved id : id ∈ reserved ↔ 1 <= id <= 32.
Proof. unfold reserved. change (N.of_nat <$> seq 1 (N.to_nat capacity)) with (ids 32). rewrite elem_ids. lia. Qed.
Lemma new_subs id s : e_subs new_endp !! id = Some s → s = mk_sub (Some []) true ∧ 1 <= id <= 32.
Proof.
  intros H%elem_of_list_to_map_2. apply elem_of_list_fmap in H as (i & [= -> ->] & Hi). split; [done|]. by apply elem_reserved.
Qed.
Lemma new_subs_in id : 1 <= id <= 32 → e_subs new_endp !! id = Some (mk_sub (Some []) true).
Proof.
  intros H. apply elem_of_list_to_map_1'.
  - intros y Hy. apply elem_of_list_fmap in Hy as (i & [= -> ->] & Hi). done.
  - apply elem_of_list_fmap. exists id. split; [done|]. by apply elem_reserved.
Qed.
Lemma LI_new r : LI r new_endp.
Proof.
  split.
  - done.
  - split; done.
  - intros id s [-> H]%new_subs. cbn. split; [lia|]. split; [lia|done].
  - cbn [e_latest new_endp]. intros id H1 H2. exists []. apply new_subs_in. lia.
  - by intros id H%elem_of_nil.
  - done.
  - by intros id [H%elem_of_nil|H%elem_of_nil].
  - constructor.
  - by intros id H%elem_of_nil.
  - intros id b [? _]%new_subs. done.
  - cbn [e_latest new_endp]. intros id H1 H2. rewrite new_subs_in in H2; [done|lia].
  - intros id s [_ H]%new_subs. left. cbn. rewrite elem_of_list_to_set. by apply elem_reserved.
  - cbn [e_latest new_endp]. intros id H. left. cbn. rewrite elem_of_list_to_set. apply elem_reserved. lia.
Qed.

Ltac fields := cbn [e_subs e_latest e_gen e_pre e_open e_tx e_rx e_sig e_spawn e_lock e_ops e_sent e_got
  with_open with_pre with_subs with_lock with_post with_spawn with_ops with_ids with_log begin_setup subscribe fst snd] in *.

Lemma phase_nops r e e' : e_open e' = e_open e → e_ops e' = e_ops e → e_latest e' = e_latest e → e_gen e' = e_gen e → phase_ok r e → phase_ok r e'.
Proof. unfold phase_ok, nops. by intros -> -> -> ->. Qed.

(** subscribing to the next id, then setup_channel *)
Lemma LI_begin r e : LI r e → e_open e = None ∨ e_open e = Some WaitCreate → 32 <= nops e →
  ∀ pre g, (r = true → g = nops e + 1) →
  let e1 := begin_setup (subscribe (with_pre (with_ids e (e_latest e) g) pre) (nops e + 1)).1 (nops e + 1) in
  LI r e1 ∧ e_subs e !! (nops e + 1) = None.
Proof.
  intros HL Ho Hn pre g Hg e1.
  assert (Hlat : e_latest e = nops e).
  { pose proof (li_phase _ _ HL) as Hp. unfold phase_ok in Hp. destruct Ho as [Ho|Ho]; rewrite Ho in Hp; lia. }
  assert (Hnone : e_subs e !! (nops e + 1) = None).
  { destruct (e_subs e !! (nops e + 1)) as [s|] eqn:Es; [|done]. apply (li_dom _ _ HL) in Es. lia. }
  assert (Hns : ∀ id, LSetup id ∉ e_lock e).
  { intros id Hid%(li_setup _ _ HL). destruct Ho; congruence. }
  split; [|done]. subst e1. split; fields; rewrite ?N.max_r by lia.
  - apply (li_ops _ _ HL).
  - unfold phase_ok. cbn. unfold nops in *. cbn. lia.
  - intros id s. destruct (decide (id = nops e + 1)) as [->|Hne].
    + rewrite lookup_insert. intros [= <-]. cbn. split; [lia|]. split; [done|lia].
    + rewrite lookup_insert_ne by done. intros Hs. apply (li_dom _ _ HL) in Hs as [Hb ->]. split; lia.
  - lia.
  - intros id [H|H%elem_of_list_singleton]%elem_of_app; [by apply Hns in H|]. congruence.
  - intros id [= <-]. apply elem_of_app. right. by left.
  - intros id Hid. assert (Hid' : id ∈ e_spawn e ∨ LClose id ∈ e_lock e).
    { destruct Hid as [?|[?|?%elem_of_list_singleton]%elem_of_app]; [by left|by right|done]. }
    apply (li_closing _ _ HL) in Hid' as [H1 (b & H2)]. split; [done|]. exists b. rewrite lookup_insert_ne; [done|]. intros <-. congruence.
  - apply NoDup_app. split_and!; [apply (li_nodup _ _ HL)| |apply NoDup_singleton]. intros q Hq ->%elem_of_list_singleton. by apply Hns in Hq.
  - intros id Hid [H|H%elem_of_list_singleton]%elem_of_app; [|done]. by apply (li_once _ _ HL) in Hid.
  - intros id b. destruct (decide (id = nops e + 1)) as [->|Hne].
    + by rewrite lookup_insert.
    + rewrite lookup_insert_ne by done. intros [?|?]%(li_drop _ _ HL); [by left|right; apply elem_of_app; by left].
  - intros id Hid. destruct (decide (id = nops e + 1)) as [->|Hne]; [by rewrite lookup_insert|].
    rewrite lookup_insert_ne by done. intros Hs. apply (li_gone _ _ HL); [lia|done].
  - intros id s. destruct (decide (id = nops e + 1)) as [->|Hne]; [by right|].
    rewrite lookup_insert_ne by done. intros Hs. apply (li_rx _ _ HL) in Hs as [?|Hs]; [by left|]. destruct Ho; congruence.
  - intros id Hid. destruct (decide (id = nops e + 1)) as [->|Hne]; [left; set_solver|].
    destruct (li_tx _ _ HL id) as [?|?]; [lia|left; set_solver|by right].
Qed.

(** changes of the unread messages, the log and the channel for openings *)
Lemma LI_rx r e id l l' b pre sent got : LI r e → e_subs e !! id = Some (mk_sub (Some l) b) →
  LI r (with_log (with_pre (with_subs e (<[id := mk_sub (Some l') b]> (e_subs e))) pre) sent got).
Proof.
  intros HL Hs.
  assert (HI : ∀ i s, <[id:=mk_sub (Some l') b]> (e_subs e) !! i = Some s → ∃ s0, e_subs e !! i = Some s0 ∧ s_res s0 = s_res s ∧ (s_rx s = None → s0 = s)).
  { intros i s. destruct (decide (i = id)) as [->|]; [rewrite lookup_insert; intros [= <-]; by eexists|]. rewrite lookup_insert_ne by done. by eexists. }
  split; fields; try apply HL.
  - intros i s (s0 & Hi & <- & _)%HI. by apply (li_dom _ _ HL).
  - intros i H1 H2. destruct (li_res _ _ HL i H1 H2) as [l0 Hl0]. destruct (decide (i = id)) as [->|].
    + rewrite lookup_insert. exists l'. assert (b = true) as -> by congruence. done.
    + exists l0. by rewrite lookup_insert_ne.
  - intros i Hi. apply (li_closing _ _ HL) in Hi as [? (b' & Hb)]. split; [done|]. exists b'. rewrite lookup_insert_ne; [done|]. intros ->. congruence.
  - intros i b' (s0 & Hi & _ & Hn)%HI. rewrite Hn in Hi by done. by eapply (li_drop _ _ HL).
  - intros i Hb Hn. apply (li_gone _ _ HL); [done|]. by apply lookup_insert_None in Hn as [? _].
  - intros i s (s0 & Hi & _)%HI. by eapply (li_rx _ _ HL).
Qed.

Definition pre_ok (r : bool) (e : endp) (a : act) : Prop := a = Opened → r = false → e_open e = Some WaitCreate → ∀ id rest, e_pre e = id :: rest → id = nops e + 1.
Lemma LI_step r e a e' ps ok : LI r e → a ≠ Cancel → pre_ok r e a →
  act_step r e a = Some (e', ps, ok) → LI r e' ∧ ok = true.
Proof.
  intros HL Hc Hpre E. destruct a as [| |id m|id|id| | |id| |p]; cbn [act_step] in E; try done.
  - (* Open *)
    destruct (e_open e) as [ph|] eqn:Eo; [done|]. pose proof (li_phase _ _ HL) as Hp. unfold phase_ok in Hp. rewrite Eo in Hp. destruct Hp as [Hlat Hgen].
    unfold get_next_prereserved in E. destruct (decide (nops e < 32)) as [Hlt|Hge].
    + destruct (li_res _ _ HL (e_latest e + 1)) as [l Hl]; [lia|lia|]. rewrite Hl in E. cbn in E. injection E as <- <- <-. split; [|done]. rewrite Hlat in *.
      split; fields; rewrite ?N.max_l by lia.
      * rewrite app_length, Nat.add_1_r, ids_snoc. rewrite (li_ops _ _ HL) at 1. done.
      * unfold phase_ok. fields. rewrite Eo. unfold nops. fields. rewrite app_length. cbn [length]. fold (nops e).
        split; [unfold nops; lia|]. intros Hr. rewrite Hgen by done. unfold nops in *. lia.
      * intros i s. destruct (decide (i = nops e + 1)) as [->|].
        -- rewrite lookup_insert. intros [= <-]. cbn. split; [lia|]. split; [done|lia].
        -- rewrite lookup_insert_ne by done. intros Hs. apply (li_dom _ _ HL) in Hs as [? ->]. rewrite Hlat. split; lia.
      * intros i H1 H2. rewrite lookup_insert_ne by lia. apply (li_res _ _ HL); lia.
      * apply HL.
      * apply HL.
      * intros i [H1 (b & H2)]%(li_closing _ _ HL). split; [apply elem_of_app; by left|]. exists b. rewrite lookup_insert_ne; [done|]. intros <-. congruence.
      * apply HL.
      * apply HL.
      * intros i b. destruct (decide (i = nops e + 1)) as [->|]; [by rewrite lookup_insert|]. rewrite lookup_insert_ne by done. apply (li_drop _ _ HL).
      * intros i Hi [Hs ?]%lookup_insert_None. destruct (li_gone _ _ HL i) as [? ?]; [lia|done|]. split; [done|apply elem_of_app; by left].
      * intros i s. destruct (decide (i = nops e + 1)) as [->|].
        -- intros _. by apply (li_rx _ _ HL) in Hl.
        -- rewrite lookup_insert_ne by done. apply (li_rx _ _ HL).
      * intros i Hi. apply (li_tx _ _ HL). lia.
    + assert (Hnone : e_subs e !! (e_latest e + 1) = None).
      { destruct (e_subs e !! (e_latest e + 1)) as [s|] eqn:Es; [|done]. apply (li_dom _ _ HL) in Es. lia. }
      rewrite Hnone in E. destruct r.
      * assert (Hg : e_gen e + 1 = nops e + 1) by (rewrite Hgen; [lia|done]). rewrite Hg in E.
        destruct (LI_begin true e HL (or_introl Eo) ltac:(lia) (e_pre e) (nops e + 1) ltac:(done)) as [H1 H2].
        injection E as <- <- <-. fields. split; [exact H1|]. by apply bool_decide_eq_true.
      * injection E as <- <- <-. split; [|done]. split; fields; try apply HL.
        -- unfold phase_ok. fields. unfold nops in *. fields. lia.
        -- intros i H%(li_setup _ _ HL). congruence.
        -- done.
        -- intros i s [?|?]%(li_rx _ _ HL); [by left|congruence].
  - (* Send *)
    destruct (e_subs e !! id) as [[[l|] b]|] eqn:Es; try done. case_bool_decide; [|done]. injection E as <- <- <-. split; [|done].
    replace e with (with_pre e (e_pre e)) at 1 by (by destruct e).
    replace (with_log (with_pre e (e_pre e)) (e_sent e ++ [(id, m)]) (e_got e)) with (with_log (with_pre (with_subs e (<[id:=mk_sub (Some l) b]> (e_subs e))) (e_pre e)) (e_sent e ++ [(id, m)]) (e_got e)).
    + by eapply LI_rx.
    + unfold with_log, with_pre, with_subs. cbn. by rewrite insert_id.
  - (* Recv *)
    destruct (e_subs e !! id) as [[[[|m l]|] b]|] eqn:Es; try done. case_bool_decide; [|done]. injection E as <- <- <-. split; [|done].
    apply (LI_rx r e id (m :: l) l b (e_pre e) (e_sent e) (e_got e ++ [(id, m)]) HL Es).
  - (* Drop *)
    destruct (e_subs e !! id) as [[[l|] b]|] eqn:Es; try done. case_bool_decide as Hin; [|done]. injection E as <- <- <-. split; [|done].
    unfold drop_sub. rewrite Es. cbn [s_res].
    assert (Hnc : ¬ (id ∈ e_spawn e ∨ LClose id ∈ e_lock e)) by (intros [_ (? & ?)]%(li_closing _ _ HL); congruence).
    assert (Hnr : b = false).
    { destruct b; [|done]. exfalso. apply (LI_in_ops _ _ _ HL) in Hin. apply (li_dom _ _ HL) in Es as [_ Hr]. cbn in Hr. pose proof (LI_latest _ _ HL). destruct Hr as [Hr _]. specialize (Hr eq_refl). lia. }
    subst b. split; fields; try apply HL.
    + intros i s. destruct (decide (i = id)) as [->|]; [|rewrite lookup_insert_ne by done; apply (li_dom _ _ HL)].
      rewrite lookup_insert. intros [= <-]. by apply (li_dom _ _ HL) in Es.
    + intros i H1 H2. destruct (li_res _ _ HL i H1 H2) as [l0 Hl0]. exists l0. rewrite lookup_insert_ne; [done|]. intros <-. congruence.
    + intros i Hi. destruct (decide (i = id)) as [->|].
      * split; [done|]. exists false. by rewrite lookup_insert.
      * rewrite lookup_insert_ne by done. apply (li_closing _ _ HL). destruct Hi as [[?|?%elem_of_list_singleton]%elem_of_app|?]; [by left|congruence|by right].
    + intros i [Hi|Hi%elem_of_list_singleton]%elem_of_app; [by apply (li_once _ _ HL)|]. subst i. intros ?. apply Hnc. by right.
    + intros i b. destruct (decide (i = id)) as [->|].
      * intros _. left. apply elem_of_app. right. by left.
      * rewrite lookup_insert_ne by done. intros [?|?]%(li_drop _ _ HL); [left; apply elem_of_app; by left|by right].
    + intros i Hb [Hn _]%lookup_insert_None. by apply (li_gone _ _ HL).
    + intros i s. destruct (decide (i = id)) as [->|]; [|rewrite lookup_insert_ne by done; apply (li_rx _ _ HL)].
      intros _. by apply (li_rx _ _ HL) in Es.
  - (* Setup *)
    destruct (e_lock e) as [|[id|id] rest] eqn:El; [done| |done]. destruct (e_open e) as [[|id'|]|] eqn:Eo; try done.
    assert (id' = id) as ->.
    { assert (H : e_open e = Some (WantLock id)) by (apply (li_setup _ _ HL); rewrite El; by left). congruence. }
    pose proof (li_phase _ _ HL) as Hp. unfold phase_ok in Hp. rewrite Eo in Hp. destruct Hp as (Hid & Hlat & Hn & Hg).
    pose proof (li_nodup _ _ HL) as Hnd. rewrite El in Hnd. apply NoDup_cons in Hnd as [Hni Hnd].
    assert (Hns : ∀ i, LSetup i ∉ rest).
    { intros i Hi. assert (e_open e = Some (WantLock i)) by (apply (li_setup _ _ HL); rewrite El; by right). assert (i = id) as -> by congruence. done. }
    assert (Hcl : ∀ i, LClose i ∈ rest ↔ LClose i ∈ e_lock e).
    { intros i. rewrite El, elem_of_cons. naive_solver. }
    destruct r; injection E as <- <- <-; (split; [|done]); split; fields; try apply HL.
    + unfold phase_ok. fields. unfold nops in *. fields. specialize (Hg eq_refl). split_and!; lia.
    + intros i Hi. by apply Hns in Hi.
    + done.
    + intros i Hi. rewrite Hcl in Hi. by apply (li_closing _ _ HL).
    + done.
    + intros i Hi. rewrite Hcl. by apply (li_once _ _ HL).
    + intros i b Hb. rewrite Hcl. by eapply (li_drop _ _ HL).
    + intros i s [?|?]%(li_rx _ _ HL); [left; set_solver|]. left. assert (i = id) by congruence. set_solver.
    + rewrite app_length, Nat.add_1_r, ids_snoc. rewrite (li_ops _ _ HL) at 1. subst id. done.
    + unfold phase_ok. fields. unfold nops in *. fields. rewrite app_length. cbn [length]. split; [lia|done].
    + intros i Hi. by apply Hns in Hi.
    + done.
    + intros i Hi. rewrite Hcl in Hi. apply (li_closing _ _ HL) in Hi as [? ?]. split; [apply elem_of_app; by left|done].
    + done.
    + intros i Hi. rewrite Hcl. by apply (li_once _ _ HL).
    + intros i b Hb. rewrite Hcl. by eapply (li_drop _ _ HL).
    + intros i Hi Hn'. destruct (li_gone _ _ HL i Hi Hn'). split; [done|apply elem_of_app; by left].
    + intros i s [?|?]%(li_rx _ _ HL); [left; set_solver|]. left. assert (i = id) by congruence. set_solver.
  - (* Opened *)
    destruct (e_pre e) as [|id rest] eqn:Ep; [done|]. destruct (e_open e) as [[|id'|id']|] eqn:Eo; try done.
    + pose proof (li_phase _ _ HL) as Hp. unfold phase_ok in Hp. rewrite Eo in Hp. destruct Hp as (-> & Hlat & Hn).
      assert (id = nops e + 1) as -> by (by eapply Hpre).
      destruct (LI_begin false e HL (or_intror Eo) Hn rest (e_gen e) ltac:(done)) as [H1 H2].
      injection E as <- <- <-. fields. split; [|by apply bool_decide_eq_true].
      unfold begin_setup, subscribe, with_ids, with_pre in H1 |- *. fields. exact H1.
    + pose proof (li_phase _ _ HL) as Hp. unfold phase_ok in Hp. rewrite Eo in Hp. destruct Hp as (-> & Hid & Hlat & Hn & Hg).
      injection E as <- <- <-. split; [|done]. split; fields; try apply HL.
      * rewrite app_length, Nat.add_1_r, ids_snoc. rewrite (li_ops _ _ HL) at 1. subst id'. done.
      * unfold phase_ok. fields. unfold nops in *. fields. rewrite app_length. cbn [length]. split; [lia|]. intros _. lia.
      * intros i Hi%(li_setup _ _ HL). congruence.
      * done.
      * intros i [? ?]%(li_closing _ _ HL). split; [apply elem_of_app; by left|done].
      * intros i Hi Hn'. destruct (li_gone _ _ HL i Hi Hn'). split; [done|apply elem_of_app; by left].
      * intros i s [?|?]%(li_rx _ _ HL); [by left|congruence].
  - (* BeginClose *)
    case_bool_decide as Hin; [|done]. injection E as <- <- <-. split; [|done].
    assert (Hiff : ∀ i, (i ∈ filter (λ j, j ≠ id) (e_spawn e) ∨ LClose i ∈ e_lock e ++ [LClose id]) ↔ (i ∈ e_spawn e ∨ LClose i ∈ e_lock e)).
    { intros i. rewrite elem_of_list_filter, elem_of_app, elem_of_list_singleton. destruct (decide (i = id)) as [->|]; naive_solver. }
    assert (Hset : ∀ i, LSetup i ∈ e_lock e ++ [LClose id] ↔ LSetup i ∈ e_lock e).
    { intros i. rewrite elem_of_app, elem_of_list_singleton. naive_solver. }
    split; fields; try apply HL.
    + intros i. rewrite Hset. apply HL.
    + intros i. rewrite Hset. apply HL.
    + intros i. rewrite Hiff. apply HL.
    + apply NoDup_app. split_and!; [apply HL| |apply NoDup_singleton]. intros q Hq ->%elem_of_list_singleton. by apply (li_once _ _ HL) in Hin.
    + intros i [Hne Hi]%elem_of_list_filter [H|H%elem_of_list_singleton]%elem_of_app; [by apply (li_once _ _ HL) in Hi|congruence].
    + intros i b. rewrite Hiff. apply HL.
  - (* Close *)
    destruct (e_lock e) as [|[id|id] rest] eqn:El; [done|done|].
    destruct (li_closing _ _ HL id) as [Hop (b & Hb)]; [right; rewrite El; by left|].
    assert (Hrx : id ∈ e_rx e).
    { apply (li_rx _ _ HL) in Hb as [?|Ho]; [done|]. pose proof (li_phase _ _ HL) as Hp. unfold phase_ok in Hp. rewrite Ho in Hp. apply (LI_in_ops _ _ _ HL) in Hop. lia. }
    rewrite bool_decide_true in E by done. case_bool_decide as Hsig; [|done]. injection E as <- <- <-. split; [|done].
    pose proof (li_nodup _ _ HL) as Hnd. rewrite El in Hnd. apply NoDup_cons in Hnd as [Hni Hnd].
    assert (Hset : ∀ i, LSetup i ∈ rest ↔ LSetup i ∈ e_lock e).
    { intros i. rewrite El, elem_of_cons. naive_solver. }
    assert (Hsp : id ∉ e_spawn e).
    { intros Hs%(li_once _ _ HL). apply Hs. rewrite El. by left. }
    split; fields; try apply HL.
    + intros i s [_ Hs]%lookup_delete_Some. by apply (li_dom _ _ HL).
    + intros i H1 H2. destruct (li_res _ _ HL i H1 H2) as [l Hl]. exists l. rewrite lookup_delete_ne; [done|]. intros <-. congruence.
    + intros i. rewrite Hset. apply HL.
    + intros i. rewrite Hset. apply HL.
    + intros i Hi. assert (i ≠ id) by (intros ->; tauto). rewrite lookup_delete_ne by done. apply (li_closing _ _ HL). destruct Hi; [by left|]. right. rewrite El. by right.
    + done.
    + intros i Hi. apply (li_once _ _ HL) in Hi. rewrite El in Hi. intros ?. apply Hi. by right.
    + intros i b' [Hne Hs]%lookup_delete_Some. apply (li_drop _ _ HL) in Hs as [?|Hs]; [by left|]. rewrite El in Hs. apply elem_of_cons in Hs as [?|?]; [congruence|by right].
    + intros i Hi. destruct (decide (i = id)) as [->|]; [done|]. rewrite lookup_delete_ne by done. by apply (li_gone _ _ HL).
    + intros i s [Hne Hs]%lookup_delete_Some. apply (li_rx _ _ HL) in Hs as [?|?]; [left; set_solver|by right].
  - (* Arrive *)
    destruct p as [id m|id|id].
    + destruct (e_subs e !! id) as [[[l|] b]|] eqn:Es; injection E as <- <- <-; [|done..]. split; [|done].
      apply (LI_rx r e id l (l ++ [m]) b (e_pre e) (e_sent e) (e_got e) HL Es).
    + case_bool_decide; injection E as <- <- <-; [|done]. split; [|done]. split; fields; try apply HL.
      * intros i Hi Hn. destruct (li_gone _ _ HL i Hi Hn). split; [set_solver|done].
      * intros i Hi. destruct (decide (i = id)) as [->|]; [right; set_solver|]. destruct (li_tx _ _ HL i Hi); [left; set_solver|right; set_solver].
    + destruct (e_pre e) eqn:Ep; [|done]. injection E as <- <- <-. split; [|done]. split; fields; try apply HL.
Qed.

(** ** What a step means for the other node *)
Definition alive (e : endp) (id : N) : Prop := ∃ l b, e_subs e !! id = Some (mk_sub (Some l) b).
Definition dropped (e : endp) (id : N) : Prop := id ∈ e_ops e ∧ ¬ alive e id.
Definition gone (e : endp) (id : N) : Prop := dropped e id ∧ id ∉ e_spawn e.
Definition view (e : endp) (id : N) : option (list N) :=
  match e_subs e !! id with Some (mk_sub (Some l) _) => Some (on id (e_got e) ++ l) | _ => None end.
Definition apps (id : N) (q : list packet) : list N := omap (λ p, match p with App i m => if bool_decide (i = id) then Some m else None | _ => None end) q.
Definition creates (q : list packet) : list N := omap (λ p, match p with PreCreate i => Some i | _ => None end) q.

Lemma LI_alive r e id : LI r e → id ∉ e_ops e → 1 <= id <= N.max 32 (e_latest e) → alive e id.
Proof.
  intros HL Hn Hid. destruct (e_subs e !! id) as [[[l|] b]|] eqn:Es.
  - by exists l, b.
  - destruct (li_closing _ _ HL id) as [? _]; [by eapply (li_drop _ _ HL)|done].
  - by destruct (li_gone _ _ HL id Hid Es).
Qed.
Lemma alive_not_none e id b : e_subs e !! id = Some (mk_sub None b) → ¬ alive e id.
Proof. intros H (l & b' & H'). congruence. Qed.
Lemma missing_not_alive e id : e_subs e !! id = None → ¬ alive e id.
Proof. intros H (l & b' & H'). congruence. Qed.

(** which steps end the life of a subscription *)
Lemma dropped_step r e a e' ps ok id : LI r e → a ≠ Cancel → pre_ok r e a → act_step r e a = Some (e', ps, ok) →
  (dropped e' id ↔ dropped e id ∨ a = Drop id).
Proof.
  intros HL Hc Hpre E.
  assert (Hsub : ∀ i s, (∃ l b, s = mk_sub (Some l) b) → alive e i ∨ i ∉ e_ops e → e_ops e' = e_ops e → e_subs e' = <[i := s]> (e_subs e) → a ≠ Drop id → (dropped e' id ↔ dropped e id ∨ a = Drop id)).
  { intros i s (l & b & ->) Hi Hops Hs Ha. unfold dropped, alive. rewrite Hops, Hs. destruct (decide (id = i)) as [->|].
    - rewrite lookup_insert. split; [intros [_ []]; by exists l, b|]. intros [[H1 H2]|?]; [|done]. destruct Hi as [Hi|Hi]; done.
    - rewrite lookup_insert_ne by done. tauto. }
  assert (Hsame : e_ops e' = e_ops e → e_subs e' = e_subs e → a ≠ Drop id → (dropped e' id ↔ dropped e id ∨ a = Drop id)).
  { intros H1 H2 Ha. unfold dropped, alive. rewrite H1, H2. tauto. }
  assert (Hnew : ∀ i, e_ops e' = e_ops e ++ [i] → alive e' i → (∀ j, j ≠ i → e_subs e' !! j = e_subs e !! j) → i ∉ e_ops e → a ≠ Drop id → (dropped e' id ↔ dropped e id ∨ a = Drop id)).
  { intros i H1 H2 H3 H4 Ha. unfold dropped. rewrite H1, elem_of_app, elem_of_list_singleton. destruct (decide (id = i)) as [->|].
    - tauto.
    - unfold alive in *. rewrite H3 by done. tauto. }
  assert (Hnn : nops e + 1 ∉ e_ops e) by (rewrite (LI_in_ops _ _ _ HL); lia).
  destruct a as [| |i m|i|i| | |i| |p]; cbn [act_step] in E; try done.
  - destruct (e_open e) as [ph|] eqn:Eo; [done|]. unfold get_next_prereserved in E.
    pose proof (li_phase _ _ HL) as Hp. unfold phase_ok in Hp. rewrite Eo in Hp. destruct Hp as [Hlat Hgen].
    destruct (e_subs e !! (e_latest e + 1)) as [s|] eqn:Es.
    + destruct (s_res s) eqn:Er.
      * assert (Hal : alive e (e_latest e + 1)).
        { apply (LI_alive _ _ _ HL); [by rewrite Hlat|]. apply (li_dom _ _ HL) in Es. lia. }
        injection E as <- <- <-. apply (Hnew (e_latest e + 1)); fields; [done| | |by rewrite Hlat|done].
        -- destruct Hal as (l & b & Hal). assert (s = mk_sub (Some l) b) as -> by congruence. exists l, false. fields. by rewrite lookup_insert.
        -- intros j Hj. by rewrite lookup_insert_ne.
      * apply (li_dom _ _ HL) in Es as [Hb [_ Hl]]. specialize (Hl ltac:(lia)). congruence.
    + destruct r; injection E as <- <- <-.
      * apply (Hsub (e_gen e + 1) (mk_sub (Some []) false)); fields; [by eexists _, _| |done|done|done]. right. rewrite Hgen by done. rewrite (LI_in_ops _ _ _ HL). lia.
      * by apply Hsame.
  - destruct (e_subs e !! i) as [[[l|] b]|] eqn:Es; try done. case_bool_decide; [|done]. injection E as <- <- <-. by apply Hsame.
  - destruct (e_subs e !! i) as [[[[|m l]|] b]|] eqn:Es; try done. case_bool_decide; [|done]. injection E as <- <- <-.
    eapply (Hsub i); fields; [|left; by eexists _, _|done|done|done]. by eexists _, _.
  - destruct (e_subs e !! i) as [[[l|] b]|] eqn:Es; try done. case_bool_decide as Hin; [|done]. injection E as <- <- <-. unfold drop_sub. rewrite Es.
    unfold dropped, alive. fields. destruct (decide (id = i)) as [->|Hne].
    + rewrite lookup_insert. split; [by right|]. intros _. split; [done|]. by intros (? & ? & ?).
    + rewrite lookup_insert_ne by done. split; [by left|]. intros [?|?]; [done|congruence].
  - destruct (e_lock e) as [|[i|i] rest] eqn:El; [done| |done]. destruct (e_open e) as [[|id'|]|] eqn:Eo; try done.
    pose proof (li_phase _ _ HL) as Hp. unfold phase_ok in Hp. rewrite Eo in Hp. destruct Hp as (-> & Hlat & Hn & Hg).
    destruct r; injection E as <- <- <-; [by apply Hsame|]. apply (Hnew (nops e + 1)); fields; [done| |done|done|done].
    apply (LI_alive _ _ _ HL) in Hnn; [done|lia].
  - destruct (e_pre e) as [|i rest] eqn:Ep; [done|]. destruct (e_open e) as [[|id'|id']|] eqn:Eo; try done.
    + pose proof (li_phase _ _ HL) as Hp. unfold phase_ok in Hp. rewrite Eo in Hp. destruct Hp as (-> & Hlat & Hn).
      rewrite (Hpre eq_refl eq_refl Eo _ _ Ep) in E. injection E as <- <- <-.
      apply (Hsub (nops e + 1) (mk_sub (Some []) false)); fields; [by eexists _, _|by right|done|done|done].
    + pose proof (li_phase _ _ HL) as Hp. unfold phase_ok in Hp. rewrite Eo in Hp. destruct Hp as (-> & -> & Hlat & Hn & Hg).
      injection E as <- <- <-. apply (Hnew (nops e + 1)); fields; [done| |done|done|done]. apply (LI_alive _ _ _ HL) in Hnn; [done|lia].
  - case_bool_decide; [|done]. injection E as <- <- <-. by apply Hsame.
  - destruct (e_lock e) as [|[i|i] rest] eqn:El; [done|done|].
    destruct (li_closing _ _ HL i) as [Hop (b & Hb)]; [right; rewrite El; by left|].
    assert (Hal : ¬ alive e i) by (by eapply alive_not_none).
    assert (H : e_ops e' = e_ops e ∧ e_subs e' = delete i (e_subs e)) by (repeat case_bool_decide; simplify_eq; done). destruct H as [H1 H2].
    unfold dropped, alive. rewrite H1, H2. destruct (decide (id = i)) as [->|].
    + rewrite lookup_delete. split; [left; done|]. intros _. split; [done|]. by intros (? & ? & ?).
    + rewrite lookup_delete_ne by done. split; [by left|]. by intros [?|?].
  - destruct p as [i m|i|i].
    + destruct (e_subs e !! i) as [[[l|] b]|] eqn:Es; injection E as <- <- <-; [|by apply Hsame..].
      eapply (Hsub i); fields; [|left; by eexists _, _|done|done|done]. by eexists _, _.
    + case_bool_decide; injection E as <- <- <-; by apply Hsame.
    + destruct (e_pre e) eqn:Ep; [|done]. injection E as <- <- <-. by apply Hsame.
Qed.

Lemma gone_step r e a e' ps ok id : LI r e → a ≠ Cancel → pre_ok r e a → act_step r e a = Some (e', ps, ok) → gone e id → gone e' id.
Proof.
  intros HL Hc Hpre E [Hd Hs]. assert (Hd' : dropped e' id) by (apply (dropped_step _ _ _ _ _ _ _ HL Hc Hpre E); by left). split; [done|].
  destruct a as [| |i m|i|i| | |i| |p]; try done.
  4: { cbn [act_step] in E. destruct (e_subs e !! i) as [[[l|] b]|] eqn:Es; try done. case_bool_decide; [|done]. injection E as <- <- <-.
       unfold drop_sub. rewrite Es. fields. apply not_elem_of_app. split; [done|]. intros ->%elem_of_list_singleton. destruct Hd as [_ []]. by exists l, b. }
  all: cbn [act_step] in E; unfold get_next_prereserved, begin_setup, subscribe in E; repeat case_match; simplify_eq; fields; try done.
  all: intros [_ ?]%elem_of_list_filter; done.
Qed.
Lemma ops_step r e a e' ps ok id : act_step r e a = Some (e', ps, ok) → id ∈ e_ops e → id ∈ e_ops e'.
Proof.
  intros E Hid. destruct a as [| |i m|i|i| | |i| |p]; cbn [act_step] in E; unfold get_next_prereserved, drop_sub, begin_setup, subscribe in E; repeat case_match; simplify_eq; fields; try done; apply elem_of_app; by left.
Qed.

(** what a step sends *)
Lemma send_step r e a e' ps ok : LI r e → a ≠ Cancel → pre_ok r e a → act_step r e a = Some (e', ps, ok) →
  (∃ id m, a = Send id m ∧ ps = [App id m] ∧ id ∈ e_ops e ∧ alive e id ∧ e_sent e' = e_sent e ++ [(id, m)]) ∨
  (e_sent e' = e_sent e ∧
   (ps = [] ∨ (∃ id, ps = [PostDrop id] ∧ gone e' id) ∨
    (∃ id, a = Setup ∧ e_open e = Some (WantLock id) ∧ ps = [PreCreate id]))).
Proof.
  intros HL Hc Hpre E. destruct a as [| |i m|i|i| | |i| |p]; try done.
  - right. cbn [act_step] in E. unfold get_next_prereserved, begin_setup, subscribe in E. repeat case_match; simplify_eq; fields; split; try done; by left.
  - left. cbn [act_step] in E. destruct (e_subs e !! i) as [[[l|] b]|] eqn:Es; try done. case_bool_decide; [|done]. injection E as <- <- <-. exists i, m. split_and!; try done. by exists l, b.
  - right. cbn [act_step] in E. repeat case_match; simplify_eq; fields; split; try done; by left.
  - right. cbn [act_step] in E. unfold drop_sub in E. repeat case_match; simplify_eq; fields; split; try done; by left.
  - right. cbn [act_step] in E. destruct (e_lock e) as [|[i|i] rest] eqn:El; [done| |done]. destruct (e_open e) as [[|id'|]|] eqn:Eo; try done.
    destruct r; injection E as <- <- <-; fields; (split; [done|]); right; right; by exists id'.
  - right. cbn [act_step] in E. unfold begin_setup, subscribe in E. repeat case_match; simplify_eq; fields; split; try done; by left.
  - right. pose proof E as E0. cbn [act_step] in E. case_bool_decide as Hin; [|done]. injection E as <- <- <-. fields. split; [done|].
    destruct r; [|by left]. right. left. exists i. split; [done|]. split.
    + apply (dropped_step _ _ _ _ _ _ i HL Hc Hpre E0). left. destruct (li_closing _ _ HL i) as [? (b & Hb)]; [by left|]. split; [done|]. by eapply alive_not_none.
    + fields. intros [? _]%elem_of_list_filter. done.
  - right. pose proof E as E0. cbn [act_step] in E. destruct (e_lock e) as [|[i|i] rest] eqn:El; [done|done|].
    destruct (li_closing _ _ HL i) as [Hop (b & Hb)]; [right; rewrite El; by left|].
    assert (Hal : ¬ alive e i) by (by eapply alive_not_none).
    assert (Hsp : i ∉ e_spawn e). { intros Hs%(li_once _ _ HL). apply Hs. rewrite El. by left. }
    repeat case_bool_decide; simplify_eq; fields; (split; [done|]); [|by left]. destruct r; [by left|]. right. left. exists i. split; [done|]. split; [|done].
    apply (dropped_step _ _ _ _ _ _ i HL Hc Hpre E0). left. by split.
  - right. cbn [act_step] in E. repeat case_match; simplify_eq; fields; split; try done; by left.
Qed.

(** what a step does with the messages that have come, apart from the arrival of one *)
Lemma on_app id l1 l2 : on id (l1 ++ l2) = on id l1 ++ on id l2.
Proof. unfold on. by rewrite filter_app, fmap_app. Qed.
Lemma on_single_eq i m : on i [(i, m)] = [m].
Proof. unfold on. by rewrite filter_cons_True. Qed.
Lemma on_single_ne id i m : id ≠ i → on id [(i, m)] = [].
Proof. intros H. unfold on. rewrite filter_cons_False; [done|]. cbn. congruence. Qed.
Definition fresh (r : bool) (e : endp) (a : act) (id : N) : Prop :=
  id = nops e + 1 ∧ 32 < id ∧ (r = true → a = Open ∧ e_open e = None) ∧ (r = false → a = Opened).
Lemma recv_step r e a e' ps ok : LI r e → a ≠ Cancel → pre_ok r e a → (∀ p, a ≠ Arrive p) → act_step r e a = Some (e', ps, ok) →
  e_sig e' = e_sig e ∧
  ∀ id, (∀ v, view e' id = Some v → view e id = Some v ∨ (fresh r e a id ∧ v = on id (e_got e))) ∧
        (on id (e_got e') = on id (e_got e) ∨ ∃ v, view e' id = Some v ∧ on id (e_got e') `prefix_of` v).
Proof.
  intros HL Hc Hpre Ha E.
  assert (Hsame : e_subs e' = e_subs e → e_got e' = e_got e → e_sig e' = e_sig e → e_sig e' = e_sig e ∧
    ∀ id, (∀ v, view e' id = Some v → view e id = Some v ∨ (fresh r e a id ∧ v = on id (e_got e))) ∧
        (on id (e_got e') = on id (e_got e) ∨ ∃ v, view e' id = Some v ∧ on id (e_got e') `prefix_of` v)).
  { intros H1 H2 H3. split; [done|]. intros id. unfold view. rewrite H1, H2. split; [by left|by left]. }
  assert (Hsubs : ∀ i s, e_subs e' = <[i := s]> (e_subs e) ∨ e_subs e' = delete i (e_subs e) → e_got e' = e_got e → e_sig e' = e_sig e →
    (∀ v, view e' i = Some v → view e i = Some v ∨ (fresh r e a i ∧ v = on i (e_got e))) →
    e_sig e' = e_sig e ∧
    ∀ id, (∀ v, view e' id = Some v → view e id = Some v ∨ (fresh r e a id ∧ v = on id (e_got e))) ∧
        (on id (e_got e') = on id (e_got e) ∨ ∃ v, view e' id = Some v ∧ on id (e_got e') `prefix_of` v)).
  { intros i s H1 H2 H3 H4. split; [done|]. intros id. split; [|left; by rewrite H2]. destruct (decide (id = i)) as [->|]; [done|].
    intros v Hv. left. unfold view in *. destruct H1 as [H1|H1]; rewrite H1, H2 in Hv; [by rewrite lookup_insert_ne in Hv|by rewrite lookup_delete_ne in Hv]. }
  destruct a as [| |i m|i|i| | |i| |p]; cbn [act_step] in E; try done.
  - destruct (e_open e) as [ph|] eqn:Eo; [done|]. unfold get_next_prereserved in E.
    pose proof (li_phase _ _ HL) as Hp. unfold phase_ok in Hp. rewrite Eo in Hp. destruct Hp as [Hlat Hgen].
    destruct (e_subs e !! (e_latest e + 1)) as [s|] eqn:Es.
    + destruct (s_res s) eqn:Er.
      * injection E as <- <- <-. eapply (Hsubs (e_latest e + 1)); fields; [by left|done|done|]. intros v. unfold view. fields. rewrite lookup_insert, Es. destruct s as [[l|] b]; cbn; intros; [by left|done].
      * apply (li_dom _ _ HL) in Es as [Hb [_ Hl]]. specialize (Hl ltac:(lia)). congruence.
    + destruct r; injection E as <- <- <-; [|by apply Hsame].
      eapply (Hsubs (e_gen e + 1)); fields; [by left|done|done|]. intros v. unfold view. fields. rewrite lookup_insert, app_nil_r. intros [= <-]. right.
      assert (Hge : 32 <= nops e).
      { destruct (decide (32 <= nops e)); [done|]. destruct (li_res _ _ HL (e_latest e + 1)) as [l Hl]; [lia|lia|congruence]. }
      rewrite Hgen by done. rewrite N.max_r by done. split; [|done]. split_and!; [done|lia|done|done].
  - destruct (e_subs e !! i) as [[[l|] b]|] eqn:Es; try done. case_bool_decide; [|done]. injection E as <- <- <-. by apply Hsame.
  - destruct (e_subs e !! i) as [[[[|m l]|] b]|] eqn:Es; try done. case_bool_decide; [|done]. injection E as <- <- <-. fields. split; [done|]. intros id.
    unfold view. fields. rewrite on_app. destruct (decide (id = i)) as [->|Hne].
    + rewrite lookup_insert, Es, on_single_eq, <- app_assoc. cbn [app]. split; [by left|]. right. eexists. split; [done|].
      apply prefix_app. apply (prefix_app_r [m] [m] l). done.
    + rewrite lookup_insert_ne by done. rewrite on_single_ne by done. rewrite app_nil_r. split; [by left|by left].
  - destruct (e_subs e !! i) as [[[l|] b]|] eqn:Es; try done. case_bool_decide as Hin; [|done]. unfold drop_sub in E. rewrite Es in E. injection E as <- <- <-.
    eapply (Hsubs i); fields; [by left|done|done|]. intros v. unfold view. fields. by rewrite lookup_insert.
  - destruct (e_lock e) as [|[i|i] rest] eqn:El; [done| |done]. destruct (e_open e) as [[|id'|]|] eqn:Eo; try done.
    destruct r; injection E as <- <- <-; by apply Hsame.
  - destruct (e_pre e) as [|i rest] eqn:Ep; [done|]. destruct (e_open e) as [[|id'|id']|] eqn:Eo; try done.
    + pose proof (li_phase _ _ HL) as Hp. unfold phase_ok in Hp. rewrite Eo in Hp. destruct Hp as (-> & Hlat & Hn).
      rewrite (Hpre eq_refl eq_refl Eo _ _ Ep) in E. injection E as <- <- <-.
      eapply (Hsubs (nops e + 1)); fields; [by left|done|done|]. intros v. unfold view. fields. rewrite lookup_insert, app_nil_r. intros [= <-]. right. split; [|done]. split_and!; [done|lia|done|done].
    + injection E as <- <- <-. by apply Hsame.
  - case_bool_decide; [|done]. injection E as <- <- <-. by apply Hsame.
  - destruct (e_lock e) as [|[i|i] rest] eqn:El; [done|done|].
    apply (Hsubs i (mk_sub None false)); repeat case_bool_decide; simplify_eq; fields; try done; try (by right); unfold view; fields; by rewrite lookup_delete.
  - by destruct (Ha p).
Qed.

(** ** The messages on their way from [o] to [e] *)
Record Flow (e : endp) (q : list packet) (o : endp) : Prop := {
  f_gone : ∀ id, PostDrop id ∈ q ∨ id ∈ e_sig e → gone o id;
  f_order : ∀ id l1 l2, q = l1 ++ PostDrop id :: l2 → ∀ m, App id m ∉ l2;
  f_sig : ∀ id m, id ∈ e_sig e → App id m ∉ q;
  f_app : ∀ id m, App id m ∈ q → id ∈ e_ops o;
  f_sent : ∀ id m, (id, m) ∈ e_sent o → id ∈ e_ops o;
  f_got : ∀ id, on id (e_got e) `prefix_of` on id (e_sent o);
  f_view : ∀ id v, view e id = Some v → v ++ apps id q = on id (e_sent o);
}.
Lemma apps_app id l1 l2 : apps id (l1 ++ l2) = apps id l1 ++ apps id l2.
Proof. apply omap_app. Qed.
Lemma apps_single_eq i m : apps i [App i m] = [m].
Proof. unfold apps. cbn. by rewrite bool_decide_true. Qed.
Lemma apps_single_ne id i m : i ≠ id → apps id [App i m] = [].
Proof. intros H. unfold apps. cbn. by rewrite bool_decide_false. Qed.
Lemma apps_nil id q : (∀ m, App id m ∉ q) → apps id q = [].
Proof.
  induction q as [|p q IH]; intros H; [done|]. cbn. destruct p as [i m|i|i]; [|apply IH; intros m Hm; apply (H m); by right..].
  case_bool_decide; [subst i; destruct (H m); by left|]. apply IH. intros m' Hm. apply (H m'). by right.
Qed.
Lemma on_none id l : (∀ m, (id, m) ∉ l) → on id l = [].
Proof.
  unfold on. induction l as [|[i m] l IH]; intros H; [done|]. rewrite filter_cons_False.
  - apply IH. intros m' Hm. apply (H m'). by right.
  - cbn. intros ->. apply (H m). by left.
Qed.
Lemma snoc_split {A} (q : list A) (p : A) l1 l2 (x : A) : q ++ [p] = l1 ++ x :: l2 → (∃ l2', l2 = l2' ++ [p] ∧ q = l1 ++ x :: l2') ∨ (l2 = [] ∧ p = x ∧ q = l1).
Proof.
  intros E. destruct l2 as [|y l2 _] using rev_ind.
  - right. apply app_inj_tail in E as [-> ->]. done.
  - left. exists l2. rewrite app_comm_cons, app_assoc in E. apply app_inj_tail in E as [-> ->]. done.
Qed.
Lemma Flow_o r e q o a o' ps ok : Flow e q o → LI r o → a ≠ Cancel → pre_ok r o a → act_step r o a = Some (o', ps, ok) → Flow e (q ++ ps) o'.
Proof.
  intros HF HL Hc Hpre E.
  assert (Hg : ∀ id, gone o id → gone o' id) by (intros id; by eapply gone_step).
  assert (Ho : ∀ id, id ∈ e_ops o → id ∈ e_ops o') by (intros id; by eapply ops_step).
  destruct (send_step _ _ _ _ _ _ HL Hc Hpre E) as [(i & m & -> & -> & Hin & Hal & Hs)|[Hs Hps]].
  - split.
    + intros id Hid. apply Hg, (f_gone _ _ _ HF). destruct Hid as [[?|?%elem_of_list_singleton]%elem_of_app|?]; [by left|done|by right].
    + intros id l1 l2 Hq m'. apply snoc_split in Hq as [(l2' & -> & Hq)|(-> & ? & _)]; [|done].
      intros [H|H%elem_of_list_singleton]%elem_of_app; [by eapply (f_order _ _ _ HF)|]. injection H as -> ->.
      destruct (f_gone _ _ _ HF i) as [[_ []] _]; [|done]. left. rewrite Hq. apply elem_of_app. right. by left.
    + intros id m' Hsig [H|H%elem_of_list_singleton]%elem_of_app; [by eapply (f_sig _ _ _ HF)|]. injection H as -> ->.
      destruct (f_gone _ _ _ HF i) as [[_ []] _]; [by right|done].
    + intros id m' [H|H%elem_of_list_singleton]%elem_of_app; [apply Ho; by eapply (f_app _ _ _ HF)|]. injection H as -> ->. by apply Ho.
    + intros id m'. rewrite Hs. intros [H|H%elem_of_list_singleton]%elem_of_app; [apply Ho; by eapply (f_sent _ _ _ HF)|]. injection H as -> ->. by apply Ho.
    + intros id. rewrite Hs, on_app. apply prefix_app_r. apply (f_got _ _ _ HF).
    + intros id v Hv. rewrite Hs, on_app, apps_app, app_assoc. rewrite (f_view _ _ _ HF id v Hv). f_equal. destruct (decide (i = id)) as [->|].
      * by rewrite on_single_eq, apps_single_eq.
      * by rewrite on_single_ne, apps_single_ne.
  - assert (Hna : ∀ id m, App id m ∉ ps).
    { intros id m. destruct Hps as [->|[(i & -> & _)|(i & _ & _ & ->)]]; [apply not_elem_of_nil|by intros ?%elem_of_list_singleton..]. }
    assert (Hqa : ∀ id m, App id m ∈ q ++ ps ↔ App id m ∈ q).
    { intros id m. rewrite elem_of_app. specialize (Hna id m). tauto. }
    assert (Hpa : ∀ id, apps id (q ++ ps) = apps id q).
    { intros id. rewrite apps_app, (apps_nil id ps) by (intros; apply Hna). apply app_nil_r. }
    split.
    + intros id Hid. destruct Hid as [[?|Hid]%elem_of_app|?]; [apply Hg, (f_gone _ _ _ HF); by left| |apply Hg, (f_gone _ _ _ HF); by right].
      destruct Hps as [->|[(i & -> & ?)|(i & _ & _ & ->)]]; [by apply elem_of_nil in Hid| |by apply elem_of_list_singleton in Hid].
      apply elem_of_list_singleton in Hid. injection Hid as ->. done.
    + intros id l1 l2 Hq m. destruct Hps as [->|Hps]; [rewrite app_nil_r in Hq; by eapply (f_order _ _ _ HF)|].
      assert (H : ∃ p, ps = [p]) by (destruct Hps as [(i & -> & _)|(i & _ & _ & ->)]; by eexists). destruct H as [p ->].
      apply snoc_split in Hq as [(l2' & -> & Hq)|(-> & _ & _)]; [|apply not_elem_of_nil].
      intros [H|H]%elem_of_app; [by eapply (f_order _ _ _ HF)|by apply Hna in H].
    + intros id m Hsig. rewrite Hqa. by apply (f_sig _ _ _ HF).
    + intros id m. rewrite Hqa. intros ?. apply Ho. by eapply (f_app _ _ _ HF).
    + intros id m. rewrite Hs. intros ?. apply Ho. by eapply (f_sent _ _ _ HF).
    + intros id. rewrite Hs. apply (f_got _ _ _ HF).
    + intros id v Hv. rewrite Hs, Hpa. by apply (f_view _ _ _ HF).
Qed.
Lemma Flow_e r e q o a e' ps ok : Flow e q o → LI r e → a ≠ Cancel → pre_ok r e a → (∀ p, a ≠ Arrive p) →
  (∀ id, fresh r e a id → id ∉ e_ops o) →
  act_step r e a = Some (e', ps, ok) → Flow e' q o.
Proof.
  intros HF HL Hc Hpre Ha Hno E. destruct (recv_step _ _ _ _ _ _ HL Hc Hpre Ha E) as [Hsig Hv].
  split; rewrite ?Hsig; try apply HF.
  - intros id. destruct (Hv id) as [Hv1 [->|(v & Hv2 & Hp)]]; [apply (f_got _ _ _ HF)|]. etrans; [exact Hp|].
    destruct (Hv1 v Hv2) as [H|(_ & ->)]; [|apply (f_got _ _ _ HF)]. rewrite <- (f_view _ _ _ HF _ _ H). by apply prefix_app_r.
  - intros id v Hv2. destruct (Hv id) as [Hv1 _]. destruct (Hv1 v Hv2) as [H|(Hf & ->)]; [by apply (f_view _ _ _ HF)|].
    apply Hno in Hf. assert (Hs : on id (e_sent o) = []) by (apply on_none; intros m Hm; apply Hf; by eapply (f_sent _ _ _ HF)).
    rewrite Hs. rewrite (apps_nil id q) by (intros m Hm; apply Hf; by eapply (f_app _ _ _ HF)).
    pose proof (f_got _ _ _ HF id) as Hg. rewrite Hs in Hg. apply prefix_nil_inv in Hg. by rewrite Hg.
Qed.
Lemma Flow_arrive r e p q o e' ps ok : Flow e (p :: q) o → LI r e → (∀ id, id ∈ e_ops o → 1 <= id <= N.max 32 (e_latest e)) →
  act_step r e (Arrive p) = Some (e', ps, ok) → Flow e' q o ∧ ps = [].
Proof.
  intros HF HL Hex E. cbn [act_step] in E.
  assert (Hord : ∀ id l1 l2, q = l1 ++ PostDrop id :: l2 → ∀ m, App id m ∉ l2).
  { intros id l1 l2 -> m. apply (f_order _ _ _ HF id (p :: l1) l2). done. }
  destruct p as [i m|i|i].
  - assert (Hin : i ∈ e_ops o) by (apply (f_app _ _ _ HF i m); by left).
    assert (Hns : i ∉ e_sig e) by (intros H; apply (f_sig _ _ _ HF i m H); by left).
    destruct (e_subs e !! i) as [[[l|] b]|] eqn:Es.
    + injection E as <- <- <-. split; [|done]. split; fields.
      * intros id Hid. apply (f_gone _ _ _ HF). destruct Hid; [left; by right|by right].
      * done.
      * intros id m' Hs Hm. apply (f_sig _ _ _ HF id m' Hs). by right.
      * intros id m' Hm. apply (f_app _ _ _ HF id m'). by right.
      * apply HF.
      * apply HF.
      * intros id v Hv. unfold view in Hv. fields. destruct (decide (id = i)) as [->|Hne].
        -- rewrite lookup_insert in Hv. injection Hv as <-. assert (Hv : view e i = Some (on i (e_got e) ++ l)) by (unfold view; by rewrite Es).
           rewrite <- (f_view _ _ _ HF _ _ Hv). cbn. rewrite bool_decide_true by done. by rewrite <- !app_assoc.
        -- rewrite lookup_insert_ne in Hv by done. rewrite <- (f_view _ _ _ HF id v Hv). cbn. by rewrite bool_decide_false by congruence.
    + injection E as <- <- <-. split; [|done]. split.
      * intros id Hid. apply (f_gone _ _ _ HF). destruct Hid; [left; by right|by right].
      * done.
      * intros id m' Hs Hm. apply (f_sig _ _ _ HF id m' Hs). by right.
      * intros id m' Hm. apply (f_app _ _ _ HF id m'). by right.
      * apply HF.
      * apply HF.
      * intros id v Hv. rewrite <- (f_view _ _ _ HF id v Hv). cbn. rewrite bool_decide_false; [done|]. intros ->. unfold view in Hv. by rewrite Es in Hv.
    + exfalso. destruct (li_gone _ _ HL i) as [? _]; [by apply Hex|done|done].
  - assert (H : e_subs e' = e_subs e ∧ e_got e' = e_got e ∧ ps = [] ∧ ∀ id, id ∈ e_sig e' → id = i ∨ id ∈ e_sig e).
    { case_bool_decide; injection E as <- <- <-; fields; split_and!; try done; [|by right]. intros id. rewrite elem_of_union, elem_of_singleton. done. }
    destruct H as (H1 & H2 & -> & H3). split; [|done]. split; rewrite ?H2.
    + intros id Hid. apply (f_gone _ _ _ HF). destruct Hid as [?|[->|?]%H3]; [left; by right|left; by left|by right].
    + done.
    + intros id m' [->|Hs]%H3 Hm; [by apply (f_order _ _ _ HF i [] q eq_refl m')|]. apply (f_sig _ _ _ HF id m' Hs). by right.
    + intros id m' Hm. apply (f_app _ _ _ HF id m'). by right.
    + apply HF.
    + apply HF.
    + intros id v. unfold view. rewrite H1, H2. intros Hv. apply (f_view _ _ _ HF id v Hv).
  - destruct (e_pre e) eqn:Ep; [|done]. injection E as <- <- <-. split; [|done]. split; fields.
    + intros id Hid. apply (f_gone _ _ _ HF). destruct Hid; [left; by right|by right].
    + done.
    + intros id m' Hs Hm. apply (f_sig _ _ _ HF id m' Hs). by right.
    + intros id m' Hm. apply (f_app _ _ _ HF id m'). by right.
    + apply HF.
    + apply HF.
    + intros id v Hv. apply (f_view _ _ _ HF id v Hv).
Qed.

(** ** Both nodes *)
Definition not_want (e : endp) : Prop := ∀ id, e_open e ≠ Some (WantLock id).
(** how far an opening has come *)
Definition Opening (w : world) : Prop :=
  let r := w_r w in let i := w_i w in
  let pi := e_pre i ++ creates (to_i w) in let pr := e_pre r ++ creates (to_r w) in
  match e_open r with
  | Some (WaitReply id) =>
      (pi = [id] ∧ pr = [] ∧ not_want i ∧ (nops i = nops r ∨ (nops r = 32 ∧ nops i <= 32))) ∨
      (pi = [] ∧ pr = [] ∧ e_open i = Some (WantLock id) ∧ nops i = nops r) ∨
      (pi = [] ∧ pr = [id] ∧ not_want i ∧ nops i = nops r + 1)
  | _ => pi = [] ∧ pr = [] ∧ not_want i ∧ ((nops r <= 32 ∧ nops i <= 32) ∨ nops r = nops i)
  end.
Record WI (w : world) : Prop := {
  wi_r : LI true (w_r w);
  wi_i : LI false (w_i w);
  wi_ok : w_ok w = true;
  wi_open : Opening w;
  wi_fr : Flow (w_r w) (to_r w) (w_i w);
  wi_fi : Flow (w_i w) (to_i w) (w_r w);
  wi_pr : ∀ id, gone (w_r w) id → PostDrop id ∈ to_i w ∨ id ∈ e_sig (w_i w);
  wi_pi : ∀ id, id ∈ e_ops (w_i w) → e_subs (w_i w) !! id = None → PostDrop id ∈ to_r w ∨ id ∈ e_sig (w_r w);
}.
Lemma WI_ex_i w id : WI w → id ∈ e_ops (w_r w) → 1 <= id <= N.max 32 (e_latest (w_i w)).
Proof.
  intros H Hid. apply (LI_in_ops _ _ _ (wi_r _ H)) in Hid. pose proof (LI_latest _ _ (wi_i _ H)). pose proof (LI_latest _ _ (wi_r _ H)). pose proof (wi_open _ H) as Ho. unfold Opening in Ho.
  destruct (e_open (w_r w)) as [[| |]|]; naive_solver lia.
Qed.
Lemma WI_ex_r w id : WI w → id ∈ e_ops (w_i w) → 1 <= id <= N.max 32 (e_latest (w_r w)).
Proof.
  intros H Hid. apply (LI_in_ops _ _ _ (wi_i _ H)) in Hid. pose proof (LI_latest _ _ (wi_i _ H)). pose proof (LI_latest _ _ (wi_r _ H)). pose proof (wi_open _ H) as Ho. unfold Opening in Ho.
  pose proof (li_phase _ _ (wi_r _ H)) as Hp. unfold phase_ok in Hp.
  destruct (e_open (w_r w)) as [[| |]|]; naive_solver lia.
Qed.
Lemma creates_app l1 l2 : creates (l1 ++ l2) = creates l1 ++ creates l2.
Proof. apply omap_app. Qed.
Lemma WI_init : WI init.
Proof.
  assert (Hf : Flow new_endp [] new_endp).
  { split.
    - intros id [H%elem_of_nil|H]; [done|]. by apply elem_of_empty in H.
    - intros id l1 l2 H. by destruct l1.
    - intros id m H. by apply elem_of_empty in H.
    - by intros id m H%elem_of_nil.
    - by intros id m H%elem_of_nil.
    - done.
    - intros id v. unfold view. destruct (e_subs new_endp !! id) as [s|] eqn:Es; [|done]. apply new_subs in Es as [-> _]. by intros [= <-]. }
  split; cbn [init w_r w_i to_r to_i w_ok]; try apply LI_new; try done.
  - unfold Opening. cbn. split_and!; [done|done|by intros ? ?|left; done].
  - intros id [[H _] _]. by apply elem_of_nil in H.
  - intros id H. by apply elem_of_nil in H.
Qed.

Lemma pre_r e a : pre_ok true e a.
Proof. intros _ ?. done. Qed.
Lemma pre_i w a : WI w → pre_ok false (w_i w) a.
Proof.
  intros H _ _ Hi id rest Hp. pose proof (wi_open _ H) as Ho. unfold Opening in Ho. rewrite Hp in Ho.
  pose proof (li_phase _ _ (wi_i _ H)) as Hpi. unfold phase_ok in Hpi. rewrite Hi in Hpi.
  destruct (e_open (w_r w)) as [[|j|j]|] eqn:Er; [naive_solver|naive_solver| |naive_solver].
  pose proof (li_phase _ _ (wi_r _ H)) as Hpr. unfold phase_ok in Hpr. rewrite Er in Hpr. destruct Hpr as (_ & Hj & _).
  destruct Ho as [(H1 & _ & _ & H2)|[(? & _)|(? & _)]]; [|done..]. injection H1 as -> _. lia.
Qed.

(** a step that leaves the state of the opening alone *)
Lemma act_open r e a e' ps ok : LI r e → a ≠ Cancel → act_step r e a = Some (e', ps, ok) →
  (creates ps = [] ∧ e_open e' = e_open e ∧ e_pre e' = e_pre e ∧ nops e' = nops e) ∨
  (a = Open ∧ e_open e = None ∧ creates ps = [] ∧ e_pre e' = e_pre e ∧
     ((e_open e' = None ∧ nops e' = nops e + 1 ∧ nops e < 32) ∨
      (nops e' = nops e ∧ 32 <= nops e ∧ e_open e' = Some (if r then WantLock (nops e + 1) else WaitCreate)))) ∨
  (a = Setup ∧ ∃ id, e_open e = Some (WantLock id) ∧ creates ps = [id] ∧ e_pre e' = e_pre e ∧
     if r then e_open e' = Some (WaitReply id) ∧ nops e' = nops e else e_open e' = None ∧ nops e' = nops e + 1) ∨
  (a = Opened ∧ creates ps = [] ∧ ∃ id rest, e_pre e = id :: rest ∧ e_pre e' = rest ∧
     ((r = true ∧ e_open e = Some (WaitReply (nops e + 1)) ∧ e_open e' = None ∧ nops e' = nops e + 1) ∨
      (r = false ∧ e_open e = Some WaitCreate ∧ e_open e' = Some (WantLock id) ∧ nops e' = nops e))) ∨
  (∃ id, a = Arrive (PreCreate id) ∧ creates ps = [] ∧ e_open e' = e_open e ∧ nops e' = nops e ∧ e_pre e = [] ∧ e_pre e' = [id]).
Proof.
  intros HL Hc E. unfold nops. destruct a as [| |i m|i|i| | |i| |p]; try done.
  - right. left. cbn [act_step] in E. destruct (e_open e) as [ph|] eqn:Eo; [done|].
    pose proof (li_phase _ _ HL) as Hp. unfold phase_ok in Hp. rewrite Eo in Hp. destruct Hp as [Hlat Hgen]. unfold nops in *.
    unfold get_next_prereserved in E. destruct (e_subs e !! (e_latest e + 1)) as [s|] eqn:Es.
    + pose proof (li_dom _ _ HL _ _ Es) as [Hb Hres]. destruct (s_res s) eqn:Er; [|destruct Hres as [_ Hres]; specialize (Hres ltac:(lia)); done].
      injection E as <- <- <-. fields. rewrite app_length. cbn [length]. split_and!; try done. left. split_and!; [done|lia|lia].
    + assert (Hge : 32 <= N.of_nat (length (e_ops e))).
      { destruct (decide (32 <= N.of_nat (length (e_ops e)))); [done|]. destruct (li_res _ _ HL (e_latest e + 1)) as [l Hl]; [lia|lia|congruence]. }
      destruct r; injection E as <- <- <-; fields; split_and!; try done; right; split_and!; try done. rewrite Hgen by done. by rewrite N.max_r.
  - left. cbn [act_step] in E. repeat case_match; simplify_eq; fields; done.
  - left. cbn [act_step] in E. repeat case_match; simplify_eq; fields; done.
  - left. cbn [act_step] in E. unfold drop_sub in E. repeat case_match; simplify_eq; fields; done.
  - right. right. left. split; [done|]. cbn [act_step] in E. destruct (e_lock e) as [|[i|i] rest] eqn:El; [done| |done]. destruct (e_open e) as [[|id'|]|] eqn:Eo; try done.
    exists id'. destruct r; injection E as <- <- <-; fields; rewrite ?app_length; cbn [length]; split_and!; try done; lia.
  - right. right. right. left. split; [done|]. cbn [act_step] in E. destruct (e_pre e) as [|i rest] eqn:Ep; [done|]. destruct (e_open e) as [[|id'|id']|] eqn:Eo; try done;
      pose proof (li_phase _ _ HL) as Hp; unfold phase_ok in Hp; rewrite Eo in Hp; unfold nops in Hp.
    + destruct Hp as (-> & Hlat & Hn). injection E as <- <- <-. fields. split; [done|]. exists i, rest. split_and!; try done. right. done.
    + destruct Hp as (-> & -> & _). injection E as <- <- <-. fields. rewrite app_length. cbn [length]. split; [done|]. exists i, rest. split_and!; try done. left. split_and!; try done. lia.
  - left. cbn [act_step] in E. case_bool_decide; [|done]. injection E as <- <- <-. fields. by destruct r.
  - left. cbn [act_step] in E. repeat case_match; simplify_eq; fields; done.
  - destruct p as [i m|i|i]; cbn [act_step] in E.
    + left. repeat case_match; simplify_eq; fields; done.
    + left. repeat case_match; simplify_eq; fields; done.
    + repeat right. exists i. destruct (e_pre e) eqn:Ep; [|done]. injection E as <- <- <-. fields. done.
Qed.

Lemma Opening_r w a e' ps ok : WI w → a ≠ Cancel → (∀ p, a ≠ Arrive p) → act_step true (w_r w) a = Some (e', ps, ok) →
  ∀ b, Opening (mk_world e' (w_i w) (to_r w) (to_i w ++ ps) b).
Proof.
  intros H Hc Ha E b. pose proof (wi_open _ H) as Ho. pose proof (li_phase _ _ (wi_r _ H)) as Hp.
  unfold Opening, phase_ok in *. cbn [w_r w_i to_r to_i]. rewrite creates_app.
  destruct (act_open _ _ _ _ _ _ (wi_r _ H) Hc E) as [(-> & -> & -> & ->)|[(-> & E1 & -> & -> & Hn)|[(-> & id & E1 & -> & -> & E2 & ->)|[(-> & -> & id & rest & E1 & E2 & Hn)|(id & -> & _)]]]].
  - by rewrite app_nil_r.
  - rewrite E1 in Ho. rewrite app_nil_r. destruct Ho as (H1 & H2 & H3 & H4). destruct Hn as [(-> & -> & ?)|(-> & ? & ->)].
    + split_and!; try done. lia.
    + split_and!; done.
  - rewrite E1 in Ho, Hp. rewrite E2. destruct Ho as (H1 & H2 & H3 & H4). left. rewrite app_assoc, H1. split_and!; try done. lia.
  - destruct Hn as [(_ & E3 & -> & ->)|(? & _)]; [|done]. rewrite E3 in Ho. rewrite E1 in Ho. rewrite E2, app_nil_r.
    destruct Ho as [(_ & ? & _)|[(_ & ? & _)|(H1 & H2 & H3 & H4)]]; [done..|]. cbn [app] in H2. injection H2 as _ H2. split_and!; try done. lia.
  - by destruct (Ha (PreCreate id)).
Qed.
Lemma Opening_i w a e' ps ok : WI w → a ≠ Cancel → (∀ p, a ≠ Arrive p) → act_step false (w_i w) a = Some (e', ps, ok) →
  ∀ b, Opening (mk_world (w_r w) e' (to_r w ++ ps) (to_i w) b).
Proof.
  intros H Hc Ha E b. pose proof (wi_open _ H) as Ho. pose proof (li_phase _ _ (wi_r _ H)) as Hp. pose proof (li_phase _ _ (wi_i _ H)) as Hpi.
  unfold Opening, phase_ok in *. cbn [w_r w_i to_r to_i]. rewrite creates_app.
  assert (Hnw : ∀ ph, (∀ id, ph ≠ Some (WantLock id)) → e_open e' = ph → not_want e') by (intros ph ? ? id; naive_solver).
  destruct (act_open _ _ _ _ _ _ (wi_i _ H) Hc E) as [(-> & Eo & -> & ->)|[(-> & E1 & -> & -> & Hn)|[(-> & id & E1 & -> & -> & E2 & ->)|[(-> & -> & id & rest & E1 & E2 & Hn)|(id & -> & _)]]]].
  - rewrite app_nil_r. unfold not_want in *. rewrite Eo. done.
  - rewrite app_nil_r.
    assert (Hw : not_want e') by (destruct Hn as [(? & _)|(_ & _ & ?)]; by eapply Hnw; [|done]).
    destruct (e_open (w_r w)) as [[|j|j]|] eqn:Er.
    + split_and!; [apply Ho..|done|]. destruct Ho as (_ & _ & _ & Ho). lia.
    + split_and!; [apply Ho..|done|]. destruct Ho as (_ & _ & _ & Ho). lia.
    + destruct Ho as [(H1 & H2 & H3 & H4)|[(_ & _ & ? & _)|(H1 & H2 & H3 & H4)]]; [|congruence|].
      * left. split_and!; try done. lia.
      * right. right. split_and!; try done. lia.
    + split_and!; [apply Ho..|done|]. destruct Ho as (_ & _ & _ & Ho). lia.
  - assert (Hw : not_want e') by (by eapply Hnw; [|done]).
    destruct (e_open (w_r w)) as [[|j|j]|] eqn:Er.
    + destruct Ho as (_ & _ & Hw' & _). by destruct (Hw' id).
    + destruct Ho as (_ & _ & Hw' & _). by destruct (Hw' id).
    + destruct Ho as [(_ & _ & Hw' & _)|[(H1 & H2 & H3 & H4)|(_ & _ & Hw' & _)]]; [by destruct (Hw' id)| |by destruct (Hw' id)].
      right. right. rewrite E1 in H3. injection H3 as ->. rewrite app_assoc, H2. split_and!; try done. lia.
    + destruct Ho as (_ & _ & Hw' & _). by destruct (Hw' id).
  - destruct Hn as [(? & _)|(_ & E3 & E4 & ->)]; [done|]. rewrite E3 in Hpi. rewrite E1 in Ho. rewrite E2, app_nil_r. cbn [app] in Ho.
    destruct (e_open (w_r w)) as [[|j|j]|] eqn:Er; [by destruct Ho as (? & _)..| |by destruct Ho as (? & _)].
    destruct Ho as [(H1 & H2 & H3 & H4)|[(? & _)|(? & _)]]; [|done..]. injection H1 as -> H1. right. left. split_and!; try done. lia.
  - by destruct (Ha (PreCreate id)).
Qed.
Lemma Opening_dr w p rest e' ps ok : WI w → to_r w = p :: rest → act_step true (w_r w) (Arrive p) = Some (e', ps, ok) →
  ∀ b, Opening (mk_world e' (w_i w) rest (to_i w) b).
Proof.
  intros H Eq E b. pose proof (wi_open _ H) as Ho. unfold Opening in *. cbn [w_r w_i to_r to_i]. rewrite Eq in Ho.
  assert (Hs : e_open e' = e_open (w_r w) ∧ nops e' = nops (w_r w) ∧ e_pre e' ++ creates rest = e_pre (w_r w) ++ creates (p :: rest)).
  { unfold nops. destruct p as [i m|i|i]; cbn [act_step] in E; [repeat case_match; simplify_eq; by fields..|].
    destruct (e_pre (w_r w)) eqn:Ep; [|done]. injection E as <- <- <-. by fields. }
  destruct Hs as (-> & -> & ->). done.
Qed.
Lemma Opening_di w p rest e' ps ok : WI w → to_i w = p :: rest → act_step false (w_i w) (Arrive p) = Some (e', ps, ok) →
  ∀ b, Opening (mk_world (w_r w) e' (to_r w) rest b).
Proof.
  intros H Eq E b. pose proof (wi_open _ H) as Ho. unfold Opening in *. cbn [w_r w_i to_r to_i]. rewrite Eq in Ho.
  assert (Hs : e_open e' = e_open (w_i w) ∧ nops e' = nops (w_i w) ∧ e_pre e' ++ creates rest = e_pre (w_i w) ++ creates (p :: rest)).
  { unfold nops. destruct p as [i m|i|i]; cbn [act_step] in E; [repeat case_match; simplify_eq; by fields..|].
    destruct (e_pre (w_i w)) eqn:Ep; [|done]. injection E as <- <- <-. by fields. }
  destruct Hs as (E1 & E2 & E3). unfold not_want in *. rewrite E1, E2, E3. done.
Qed.

(** whatever leaves a table is announced *)
Lemma gone_new r e a e' ps ok id : LI r e → a ≠ Cancel → pre_ok r e a → act_step r e a = Some (e', ps, ok) → gone e' id →
  gone e id ∨ a = BeginClose id.
Proof.
  intros HL Hc Hpre E [Hd Hs]. apply (dropped_step _ _ _ _ _ _ _ HL Hc Hpre E) in Hd as [Hd| ->].
  - destruct (decide (id ∈ e_spawn e)) as [Hin|]; [|left; by split].
    destruct a as [| |i m|i|i| | |i| |p]; cbn [act_step] in E; unfold get_next_prereserved, drop_sub, begin_setup, subscribe in E.
    8: { right. case_bool_decide; [|done]. injection E as <- <- <-. fields. destruct (decide (id = i)) as [->|]; [done|]. destruct Hs. by apply elem_of_list_filter. }
    all: repeat case_match; simplify_eq; fields; try done; destruct Hs; apply elem_of_app; by left.
  - exfalso. apply Hs. cbn [act_step] in E. unfold drop_sub in E. repeat case_match; simplify_eq; fields; apply elem_of_app; right; by left.
Qed.
Lemma missing_new r e a e' ps ok id : LI r e → a ≠ Cancel → pre_ok r e a → act_step r e a = Some (e', ps, ok) → id ∈ e_ops e' → e_subs e' !! id = None →
  (id ∈ e_ops e ∧ e_subs e !! id = None) ∨ (a = Close ∧ (r = false → ps = [PostDrop id])).
Proof.
  intros HL Hc Hpre E Hin Hn. assert (Hd : dropped e' id) by (split; [done|by apply missing_not_alive]).
  apply (dropped_step _ _ _ _ _ _ _ HL Hc Hpre E) in Hd as [[Hd Ha]| ->].
  - destruct (e_subs e !! id) as [s|] eqn:Es; [|by left]. right. destruct s as [[l|] b]; [destruct Ha; by exists l, b|].
    destruct a as [| |i m|i|i| | |i| |p]; cbn [act_step] in E; unfold get_next_prereserved, drop_sub, begin_setup, subscribe in E.
    9: { split; [done|]. intros ->. destruct (e_lock e) as [|[i|i] rest] eqn:El; [done|done|].
         assert (Hrx : id ∈ e_rx e).
         { destruct (li_rx _ _ HL _ _ Es) as [?|Hw]; [done|]. pose proof (li_phase _ _ HL) as Hp. unfold phase_ok in Hp. rewrite Hw in Hp. apply (LI_in_ops _ _ _ HL) in Hd. lia. }
         destruct (decide (id = i)) as [->|].
         - rewrite bool_decide_true in E by done. case_bool_decide; [|done]. by injection E as <- <- <-.
         - repeat case_bool_decide; simplify_eq; fields; rewrite lookup_delete_ne in Hn by done; congruence. }
    all: exfalso; clear Ha; repeat case_match; simplify_eq; fields; try congruence.
    all: rewrite lookup_insert_None in Hn; destruct Hn; congruence.
  - exfalso. cbn [act_step] in E. unfold drop_sub in E. repeat case_match; simplify_eq; fields. by rewrite lookup_insert in Hn.
Qed.
Lemma arrive_gone r e p e' ps ok id : act_step r e (Arrive p) = Some (e', ps, ok) →
  (gone e' id ↔ gone e id) ∧ e_ops e' = e_ops e ∧ (e_subs e' !! id = None ↔ e_subs e !! id = None) ∧ (id ∈ e_sig e → id ∈ e_sig e').
Proof.
  intros E. cbn [act_step] in E. unfold gone, dropped, alive. destruct p as [i m|i|i].
  - destruct (e_subs e !! i) as [[[l|] b]|] eqn:Es; injection E as <- <- <-; fields; [|done..]. split_and!; [|done| |done].
    + destruct (decide (id = i)) as [->|]; [rewrite lookup_insert, Es; naive_solver|by rewrite lookup_insert_ne].
    + destruct (decide (id = i)) as [->|]; [rewrite lookup_insert, Es; done|by rewrite lookup_insert_ne].
  - case_bool_decide; injection E as <- <- <-; fields; split_and!; try done. set_solver.
  - destruct (e_pre e); [|done]. injection E as <- <- <-. by fields.
Qed.
Lemma sig_same r e a e' ps ok : LI r e → a ≠ Cancel → pre_ok r e a → (∀ p, a ≠ Arrive p) → act_step r e a = Some (e', ps, ok) → e_sig e' = e_sig e.
Proof. intros. by edestruct recv_step as [? _]. Qed.

Lemma fresh_r w a id : WI w → fresh true (w_r w) a id → id ∉ e_ops (w_i w).
Proof.
  intros H (-> & Hn & Hr & _). destruct (Hr eq_refl) as [_ Eo]. pose proof (wi_open _ H) as Ho. unfold Opening in Ho. rewrite Eo in Ho.
  rewrite (LI_in_ops _ _ _ (wi_i _ H)). destruct Ho as (_ & _ & _ & Ho). lia.
Qed.
Lemma fresh_i w a e' ps ok id : WI w → act_step false (w_i w) a = Some (e', ps, ok) → fresh false (w_i w) a id → id ∉ e_ops (w_r w).
Proof.
  intros H E (-> & Hn & _ & Hr). rewrite (Hr eq_refl) in E. cbn [act_step] in E. rewrite (LI_in_ops _ _ _ (wi_r _ H)).
  pose proof (wi_open _ H) as Ho. unfold Opening in Ho. destruct (e_pre (w_i w)) as [|i rest] eqn:Ep; [done|]. cbn [app] in Ho.
  destruct (e_open (w_r w)) as [[|j|j]|]; [by destruct Ho as (? & _)..| |by destruct Ho as (? & _)].
  destruct Ho as [(_ & _ & _ & ?)|[(? & _)|(? & _)]]; [lia|done..].
Qed.
Lemma WI_step w ev w' : WI w → (∀ r, ev ≠ At r Cancel) → step w ev = Some w' → WI w'.
Proof.
  intros H Hc E. destruct ev as [[|] a|[|]].
  - assert (Ha : ∀ p, a ≠ Arrive p) by (intros p ->; done).
    assert (Hc' : a ≠ Cancel) by (intros ->; by destruct (Hc true)).
    assert (E' : ∃ e' ps ok, act_step true (w_r w) a = Some (e', ps, ok) ∧ w' = mk_world e' (w_i w) (to_r w) (to_i w ++ ps) (w_ok w && ok)).
    { destruct a; cbn [step] in E; try done; case_match; try done; case_match; simplify_eq; case_match; simplify_eq; by repeat eexists. }
    clear E. destruct E' as (e' & ps & ok & E & ->). pose proof (pre_r (w_r w) a) as Hpre.
    destruct (LI_step _ _ _ _ _ _ (wi_r _ H) Hc' Hpre E) as [HL Hok].
    split; cbn [w_r w_i to_r to_i w_ok].
    + done.
    + apply H.
    + by rewrite (wi_ok _ H), Hok.
    + by eapply Opening_r.
    + eapply Flow_e; [apply H|apply H|done|done|done| |exact E]. intros id. by apply fresh_r.
    + eapply Flow_o; [apply H|apply H|done|done|exact E].
    + intros id Hg. apply (gone_new _ _ _ _ _ _ _ (wi_r _ H) Hc' Hpre E) in Hg as [Hg| ->].
      * apply (wi_pr _ H) in Hg as [?|?]; [left; apply elem_of_app; by left|by right].
      * left. cbn [act_step] in E. case_bool_decide; [|done]. injection E as <- <- <-. apply elem_of_app. right. by left.
    + rewrite (sig_same _ _ _ _ _ _ (wi_r _ H) Hc' Hpre Ha E). apply H.
  - assert (Ha : ∀ p, a ≠ Arrive p) by (intros p ->; done).
    assert (Hc' : a ≠ Cancel) by (intros ->; by destruct (Hc false)).
    assert (E' : ∃ e' ps ok, act_step false (w_i w) a = Some (e', ps, ok) ∧ w' = mk_world (w_r w) e' (to_r w ++ ps) (to_i w) (w_ok w && ok)).
    { destruct a; cbn [step] in E; try done; case_match; try done; case_match; simplify_eq; case_match; simplify_eq; by repeat eexists. }
    clear E. destruct E' as (e' & ps & ok & E & ->). pose proof (pre_i w a H) as Hpre.
    destruct (LI_step _ _ _ _ _ _ (wi_i _ H) Hc' Hpre E) as [HL Hok].
    split; cbn [w_r w_i to_r to_i w_ok].
    + apply H.
    + done.
    + by rewrite (wi_ok _ H), Hok.
    + by eapply Opening_i.
    + eapply Flow_o; [apply H|apply H|done|done|exact E].
    + eapply Flow_e; [apply H|apply H|done|done|done| |exact E]. intros id. by eapply fresh_i.
    + rewrite (sig_same _ _ _ _ _ _ (wi_i _ H) Hc' Hpre Ha E). apply H.
    + intros id Hin Hn. destruct (missing_new _ _ _ _ _ _ _ (wi_i _ H) Hc' Hpre E Hin Hn) as [[H1 H2]|[_ Hps]].
      * destruct (wi_pi _ H id H1 H2) as [?|?]; [left; apply elem_of_app; by left|by right].
      * rewrite (Hps eq_refl). left. apply elem_of_app. right. by left.
  - cbn [step] in E. destruct (to_r w) as [|p rest] eqn:Eq; [done|]. destruct (act_step true (w_r w) (Arrive p)) as [[[e' ps] ok]|] eqn:Ea; [|done]. injection E as <-.
    assert (Hca : Arrive p ≠ Cancel) by done.
    destruct (LI_step _ _ _ _ _ _ (wi_r _ H) Hca (pre_r _ _) Ea) as [HL Hok].
    pose proof (wi_fr _ H) as HF. rewrite Eq in HF.
    destruct (Flow_arrive _ _ _ _ _ _ _ _ HF (wi_r _ H) (λ id, WI_ex_r w id H) Ea) as [HF' ->].
    split; cbn [w_r w_i to_r to_i w_ok]; rewrite ?app_nil_r.
    + done.
    + apply H.
    + by rewrite (wi_ok _ H), Hok.
    + by eapply Opening_dr.
    + done.
    + rewrite <- (app_nil_r (to_i w)). eapply Flow_o; [apply H|apply H|done|apply pre_r|exact Ea].
    + intros id Hg. apply (wi_pr _ H). by apply (arrive_gone _ _ _ _ _ _ id Ea).
    + intros id Hin Hn. destruct (arrive_gone _ _ _ _ _ _ id Ea) as (_ & _ & _ & Hs).
      destruct (wi_pi _ H id Hin Hn) as [Hp|?]; [|right; by apply Hs]. rewrite Eq in Hp. apply elem_of_cons in Hp as [<-|?]; [|by left].
      right. cbn [act_step] in Ea. case_bool_decide as Ht; injection Ea as <- <-; fields; [set_solver|].
      destruct (li_tx _ _ (wi_r _ H) id) as [?|?]; [by eapply WI_ex_r|done|done].
  - cbn [step] in E. destruct (to_i w) as [|p rest] eqn:Eq; [done|]. destruct (act_step false (w_i w) (Arrive p)) as [[[e' ps] ok]|] eqn:Ea; [|done]. injection E as <-.
    assert (Hca : Arrive p ≠ Cancel) by done.
    destruct (LI_step _ _ _ _ _ _ (wi_i _ H) Hca (pre_i w _ H) Ea) as [HL Hok].
    pose proof (wi_fi _ H) as HF. rewrite Eq in HF.
    destruct (Flow_arrive _ _ _ _ _ _ _ _ HF (wi_i _ H) (λ id, WI_ex_i w id H) Ea) as [HF' ->].
    split; cbn [w_r w_i to_r to_i w_ok]; rewrite ?app_nil_r.
    + apply H.
    + done.
    + by rewrite (wi_ok _ H), Hok.
    + by eapply Opening_di.
    + rewrite <- (app_nil_r (to_r w)). eapply Flow_o; [apply H|apply H|done|by apply pre_i|exact Ea].
    + done.
    + intros id Hg. destruct (arrive_gone _ _ _ _ _ _ id Ea) as (_ & _ & _ & Hs).
      destruct (wi_pr _ H id Hg) as [Hp|?]; [|right; by apply Hs]. rewrite Eq in Hp. apply elem_of_cons in Hp as [<-|?]; [|by left].
      right. cbn [act_step] in Ea. case_bool_decide as Ht; injection Ea as <- <-; fields; [set_solver|].
      destruct (li_tx _ _ (wi_i _ H) id) as [?|?]; [eapply WI_ex_i; [done|apply Hg]|done|done].
    + intros id Hin Hn. destruct (arrive_gone _ _ _ _ _ _ id Ea) as (_ & H1 & H2 & _). rewrite H1 in Hin. apply (wi_pi _ H); [done|by apply H2].
Qed.

Lemma no_cancel_cons ev es : no_cancel (ev :: es) → (∀ r, ev ≠ At r Cancel) ∧ no_cancel es.
Proof. intros H. split; [intros r ->; apply (H r); by left|]. intros r Hr. apply (H r). by right. Qed.
Lemma WI_run es : ∀ w w', WI w → no_cancel es → run w es = Some w' → WI w'.
Proof.
  induction es as [|ev es IH]; intros w w' H Hn E; cbn in E; [by injection E as <-|]. apply no_cancel_cons in Hn as [H1 H2].
  destruct (step w ev) as [w1|] eqn:Es; [|done]. eapply IH; [by eapply WI_step|done|done].
Qed.

(** which subscriptions are dropped *)
Lemma dropped_world w ev w' s id : WI w → (∀ r, ev ≠ At r Cancel) → step w ev = Some w' → (dropped (get s w') id ↔ dropped (get s w) id ∨ ev = At s (Drop id)).
Proof.
  intros H Hc E. assert (Harr : ∀ r e p e' ps ok, act_step r e (Arrive p) = Some (e', ps, ok) → dropped e' id ↔ dropped e id).
  { intros r e p e' ps ok Ea. cbn [act_step] in Ea. unfold dropped, alive. destruct p as [i m|i|i]; [|repeat case_match; simplify_eq; by fields..].
    destruct (e_subs e !! i) as [[[l|] b]|] eqn:Es; injection Ea as <- <- <-; fields; [|done..].
    destruct (decide (id = i)) as [->|]; [rewrite lookup_insert, Es; naive_solver|by rewrite lookup_insert_ne]. }
  destruct ev as [[|] a|[|]].
  - assert (Hc' : a ≠ Cancel) by (intros ->; by destruct (Hc true)).
    assert (E' : ∃ e' ps ok, act_step true (w_r w) a = Some (e', ps, ok) ∧ w' = mk_world e' (w_i w) (to_r w) (to_i w ++ ps) (w_ok w && ok)).
    { destruct a; cbn [step] in E; try done; case_match; try done; case_match; simplify_eq; case_match; simplify_eq; by repeat eexists. }
    destruct E' as (e' & ps & ok & Ea & ->). destruct s; cbn [get w_r w_i].
    + rewrite (dropped_step _ _ _ _ _ _ id (wi_r _ H) Hc' (pre_r _ _) Ea). naive_solver.
    + naive_solver.
  - assert (Hc' : a ≠ Cancel) by (intros ->; by destruct (Hc false)).
    assert (E' : ∃ e' ps ok, act_step false (w_i w) a = Some (e', ps, ok) ∧ w' = mk_world (w_r w) e' (to_r w ++ ps) (to_i w) (w_ok w && ok)).
    { destruct a; cbn [step] in E; try done; case_match; try done; case_match; simplify_eq; case_match; simplify_eq; by repeat eexists. }
    destruct E' as (e' & ps & ok & Ea & ->). destruct s; cbn [get w_r w_i].
    + naive_solver.
    + rewrite (dropped_step _ _ _ _ _ _ id (wi_i _ H) Hc' (pre_i _ _ H) Ea). naive_solver.
  - cbn [step] in E. destruct (to_r w) as [|p rest] eqn:Eq; [done|]. destruct (act_step true (w_r w) (Arrive p)) as [[[e' ps] ok]|] eqn:Ea; [|done]. injection E as <-.
    destruct s; cbn [get w_r w_i]; [rewrite (Harr _ _ _ _ _ _ Ea)|]; naive_solver.
  - cbn [step] in E. destruct (to_i w) as [|p rest] eqn:Eq; [done|]. destruct (act_step false (w_i w) (Arrive p)) as [[[e' ps] ok]|] eqn:Ea; [|done]. injection E as <-.
    destruct s; cbn [get w_r w_i]; [|rewrite (Harr _ _ _ _ _ _ Ea)]; naive_solver.
Qed.
Lemma dropped_run es : ∀ w w' s id, WI w → no_cancel es → run w es = Some w' → (dropped (get s w') id ↔ dropped (get s w) id ∨ At s (Drop id) ∈ es).
Proof.
  induction es as [|ev es IH]; intros w w' s id H Hn E; cbn in E; [injection E as <-; set_solver|]. apply no_cancel_cons in Hn as [H1 H2].
  destruct (step w ev) as [w1|] eqn:Es; [|done]. rewrite (IH w1 w' s id (WI_step _ _ _ H H1 Es) H2 E), (dropped_world _ _ _ s id H H1 Es), elem_of_cons. naive_solver.
Qed.
Lemma dropped_init s id : ¬ dropped (get s init) id.
Proof. intros [H _]. by destruct s; apply elem_of_nil in H. Qed.
Lemma dropped_reached es w s id : no_cancel es → run init es = Some w → (dropped (get s w) id ↔ At s (Drop id) ∈ es).
Proof. intros Hn E. rewrite (dropped_run _ _ _ s id WI_init Hn E). pose proof (dropped_init s id). naive_solver. Qed.

(** ** States in which nothing happens by itself *)
Lemma quiet_queue_r w : WI w → step w (Deliver true) = None → to_r w = [].
Proof.
  intros H E. cbn [step] in E. destruct (to_r w) as [|p rest] eqn:Eq; [done|]. exfalso.
  destruct (act_step true (w_r w) (Arrive p)) as [[[e' ps] ok]|] eqn:Ea; [done|]. cbn [act_step] in Ea.
  destruct p as [i m|i|i]; [repeat case_match; done..|]. destruct (e_pre (w_r w)) as [|j l] eqn:Ep; [done|].
  pose proof (wi_open _ H) as Ho. unfold Opening in Ho. rewrite Ep, Eq in Ho. cbn [app] in Ho.
  assert (Hc : creates (PreCreate i :: rest) = i :: creates rest) by done. rewrite Hc in Ho.
  destruct (e_open (w_r w)) as [[| |]|]; destruct l; naive_solver.
Qed.
Lemma quiet_queue_i w : WI w → step w (Deliver false) = None → to_i w = [].
Proof.
  intros H E. cbn [step] in E. destruct (to_i w) as [|p rest] eqn:Eq; [done|]. exfalso.
  destruct (act_step false (w_i w) (Arrive p)) as [[[e' ps] ok]|] eqn:Ea; [done|]. cbn [act_step] in Ea.
  destruct p as [i m|i|i]; [repeat case_match; done..|]. destruct (e_pre (w_i w)) as [|j l] eqn:Ep; [done|].
  pose proof (wi_open _ H) as Ho. unfold Opening in Ho. rewrite Ep, Eq in Ho. cbn [app] in Ho.
  assert (Hc : creates (PreCreate i :: rest) = i :: creates rest) by done. rewrite Hc in Ho.
  destruct (e_open (w_r w)) as [[| |]|]; destruct l; naive_solver.
Qed.
Lemma quiet_at w r a : quiet w → internal (At r a) → act_step r (get r w) a = None.
Proof.
  intros Hq Hi. specialize (Hq _ Hi). destruct r, a; cbn [get]; try done; cbn [step] in Hq; destruct (act_step _ _ _) as [[[? ?] ?]|]; done.
Qed.
Lemma quiet_local r e : LI r e → act_step r e Setup = None → (∀ id, act_step r e (BeginClose id) = None) →
  e_spawn e = [] ∧ ∀ q rest, e_lock e = q :: rest → ∃ id, q = LClose id.
Proof.
  intros HL H1 H2. split.
  - destruct (e_spawn e) as [|id l] eqn:Es; [done|]. specialize (H2 id). cbn [act_step] in H2. rewrite Es, bool_decide_true in H2 by (by left). done.
  - intros q rest El. destruct q as [id|id]; [|by exists id]. exfalso. cbn [act_step] in H1. rewrite El in H1.
    rewrite (li_setup _ _ HL id) in H1 by (rewrite El; by left). by destruct r.
Qed.
Lemma quiet_close r e id rest : act_step r e Close = None → e_lock e = LClose id :: rest → id ∉ e_sig e.
Proof. intros H El Hs. cbn [act_step] in H. rewrite El in H. case_bool_decide; [|done]. rewrite bool_decide_true in H by done. done. Qed.
Lemma quiet_closed w : WI w → quiet w → (∀ id, dropped (w_r w) id ↔ dropped (w_i w) id) →
  to_r w = [] ∧ to_i w = [] ∧ e_lock (w_r w) = [] ∧ e_lock (w_i w) = [] ∧
  ∀ s id, dropped (get s w) id → e_subs (get s w) !! id = None.
Proof.
  intros H Hq Hd.
  assert (Er : to_r w = []) by (apply quiet_queue_r; [done|by apply Hq]).
  assert (Ei : to_i w = []) by (apply quiet_queue_i; [done|by apply Hq]).
  assert (Ha : ∀ r a, internal (At r a) → act_step r (get r w) a = None) by (intros; by apply quiet_at).
  destruct (quiet_local _ _ (wi_r _ H) (Ha true Setup I) (λ id, Ha true (BeginClose id) I)) as [Sr Lr].
  destruct (quiet_local _ _ (wi_i _ H) (Ha false Setup I) (λ id, Ha false (BeginClose id) I)) as [Si Li].
  cbn [get] in *.
  assert (Hsi : ∀ id, dropped (w_r w) id → id ∈ e_sig (w_i w)).
  { intros id Hid. destruct (wi_pr _ H id) as [Hp|?]; [split; [done|]; rewrite Sr; apply not_elem_of_nil| |done]. rewrite Ei in Hp. by apply elem_of_nil in Hp. }
  assert (Hgone : ∀ r e id, LI r e → e_spawn e = [] → e_lock e = [] → dropped e id → e_subs e !! id = None).
  { intros r e id HL Hs Hl [_ Hal]. destruct (e_subs e !! id) as [[[l|] b]|] eqn:Es; [destruct Hal; by exists l, b| |done].
    apply (li_drop _ _ HL) in Es. rewrite Hs, Hl in Es. by destruct Es as [?%elem_of_nil|?%elem_of_nil]. }
  assert (Hcl : ∀ r e id, LI r e → LClose id ∈ e_lock e → dropped e id).
  { intros r e id HL Hl. destruct (li_closing _ _ HL id) as [? (b & Hb)]; [by right|]. split; [done|by eapply alive_not_none]. }
  assert (Hli : e_lock (w_i w) = []).
  { destruct (e_lock (w_i w)) as [|q rest] eqn:El; [done|]. destruct (Li q rest eq_refl) as [id ->]. exfalso.
    apply (quiet_close _ _ _ _ (Ha false Close I) El). apply Hsi, Hd. eapply Hcl; [apply H|]. rewrite El. by left. }
  assert (Hsr : ∀ id, dropped (w_i w) id → id ∈ e_sig (w_r w)).
  { intros id Hid. destruct (wi_pi _ H id) as [Hp|?]; [apply Hid|eapply Hgone; [apply H|done..]| |done]. rewrite Er in Hp. by apply elem_of_nil in Hp. }
  assert (Hlr : e_lock (w_r w) = []).
  { destruct (e_lock (w_r w)) as [|q rest] eqn:El; [done|]. destruct (Lr q rest eq_refl) as [id ->]. exfalso.
    apply (quiet_close _ _ _ _ (Ha true Close I) El). apply Hsr, Hd. eapply Hcl; [apply H|]. rewrite El. by left. }
  split_and!; try done. intros [|] id Hid; cbn [get] in *; [by eapply Hgone; [apply (wi_r _ H)|..]|by eapply Hgone; [apply (wi_i _ H)|..]].
Qed.


(** how many openings a user has begun *)
Definition pending (e : endp) : nat := match e_open e with Some _ => 1 | None => 0 end.
Definition begins (a : act) : nat := match a with Open => 1 | _ => 0 end.
Lemma opens_step r e a e' ps ok : LI r e → a ≠ Cancel → act_step r e a = Some (e', ps, ok) →
  (length (e_ops e') + pending e' = length (e_ops e) + pending e + begins a)%nat.
Proof.
  intros HL Hc E. unfold pending.
  destruct a as [| |i m|i|i| | |i| |p]; cbn [act_step begins] in *; try done; unfold get_next_prereserved, drop_sub, begin_setup, subscribe in E;
    repeat case_match; simplify_eq; fields; simplify_eq; rewrite ?app_length; cbn [length]; try lia.
Qed.
Lemma opens_run es : ∀ w w' s, WI w → no_cancel es → run w es = Some w' →
  (length (e_ops (get s w')) + pending (get s w') = length (e_ops (get s w)) + pending (get s w) + opens s es)%nat.
Proof.
  induction es as [|ev es IH]; intros w w' s H Hn E; cbn in E; [injection E as <-; cbn; lia|]. apply no_cancel_cons in Hn as [H1 H2].
  destruct (step w ev) as [w1|] eqn:Es; [|done]. rewrite (IH w1 w' s (WI_step _ _ _ H H1 Es) H2 E). cbn [opens].
  destruct ev as [[|] a|[|]].
  - assert (Hc' : a ≠ Cancel) by (intros ->; by destruct (H1 true)).
    assert (E' : ∃ e' ps ok, act_step true (w_r w) a = Some (e', ps, ok) ∧ w1 = mk_world e' (w_i w) (to_r w) (to_i w ++ ps) (w_ok w && ok)).
    { clear E. destruct a; cbn [step] in Es; try done; case_match; try done; case_match; simplify_eq; case_match; simplify_eq; by repeat eexists. }
    destruct E' as (e' & ps & ok & Ea & ->). pose proof (opens_step _ _ _ _ _ _ (wi_r _ H) Hc' Ea). destruct s; cbn [get w_r w_i]; destruct a; cbn in *; lia.
  - assert (Hc' : a ≠ Cancel) by (intros ->; by destruct (H1 false)).
    assert (E' : ∃ e' ps ok, act_step false (w_i w) a = Some (e', ps, ok) ∧ w1 = mk_world (w_r w) e' (to_r w ++ ps) (to_i w) (w_ok w && ok)).
    { clear E. destruct a; cbn [step] in Es; try done; case_match; try done; case_match; simplify_eq; case_match; simplify_eq; by repeat eexists. }
    destruct E' as (e' & ps & ok & Ea & ->). pose proof (opens_step _ _ _ _ _ _ (wi_i _ H) Hc' Ea). destruct s; cbn [get w_r w_i]; destruct a; cbn in *; lia.
  - cbn [step] in Es. destruct (to_r w) as [|p rest] eqn:Eq; [done|]. destruct (act_step true (w_r w) (Arrive p)) as [[[e' ps] ok]|] eqn:Ea; [|done]. injection Es as <-.
    assert (Hca : Arrive p ≠ Cancel) by done. pose proof (opens_step _ _ _ _ _ _ (wi_r _ H) Hca Ea). destruct s; cbn [get w_r w_i begins] in *; lia.
  - cbn [step] in Es. destruct (to_i w) as [|p rest] eqn:Eq; [done|]. destruct (act_step false (w_i w) (Arrive p)) as [[[e' ps] ok]|] eqn:Ea; [|done]. injection Es as <-.
    assert (Hca : Arrive p ≠ Cancel) by done. pose proof (opens_step _ _ _ _ _ _ (wi_i _ H) Hca Ea). destruct s; cbn [get w_r w_i begins] in *; lia.
Qed.
Lemma quiet_opened w : WI w → quiet w → (∀ id, dropped (w_r w) id ↔ dropped (w_i w) id) →
  ∀ s, nops (get s w) < nops (get (negb s) w) + N.of_nat (pending (get (negb s) w)) → pending (get s w) = 0%nat.
Proof.
  intros H Hq Hd s Hlt. destruct (quiet_closed w H Hq Hd) as (Er & Ei & Lr & Li & _).
  pose proof (wi_open _ H) as Ho. unfold Opening in Ho. rewrite Er, Ei in Ho. change (creates []) with (@nil N) in Ho. rewrite !app_nil_r in Ho.
  assert (Ha : ∀ r a, internal (At r a) → act_step r (get r w) a = None) by (intros; by apply quiet_at).
  pose proof (Ha true Opened I) as Or. pose proof (Ha false Opened I) as Oi. cbn [get act_step] in Or, Oi.
  pose proof (li_phase _ _ (wi_r _ H)) as Pr. pose proof (li_phase _ _ (wi_i _ H)) as Pi. unfold phase_ok, pending in *.
  destruct (e_open (w_r w)) as [[|j|j]|] eqn:Eor.
  - by destruct Pr.
  - apply (li_lock _ _ (wi_r _ H)) in Eor. rewrite Lr in Eor. by apply elem_of_nil in Eor.
  - assert (Hi : e_open (w_i w) = None ∧ nops (w_i w) <= nops (w_r w)).
    { destruct Ho as [(E1 & E2 & Hw & Hn)|[(_ & _ & Eoi & _)|(_ & E2 & _)]].
      - split; [|lia]. destruct (e_open (w_i w)) as [[|k|k]|] eqn:Eoi; [|by destruct (Hw k)|by destruct Pi|done]. rewrite E1 in Oi. done.
      - apply (li_lock _ _ (wi_i _ H)) in Eoi. rewrite Li in Eoi. by apply elem_of_nil in Eoi.
      - by rewrite E2 in Or. }
    destruct Hi as [Hi Hn]. destruct s; cbn [get negb] in *; rewrite ?Hi, ?Eor in *; try done; lia.
  - destruct Ho as (E1 & E2 & Hw & Hn). destruct (e_open (w_i w)) as [[|k|k]|] eqn:Eoi.
    + destruct s; cbn [get negb] in *; rewrite ?Eoi, ?Eor in *; try done; lia.
    + by destruct (Hw k).
    + by destruct Pi.
    + destruct s; cbn [get]; by rewrite ?Eoi, ?Eor.
Qed.

(** ** The work that is left for the nodes *)
Definition pw (r : bool) (p : packet) : nat := match p with App _ _ | PostDrop _ => 1 | PreCreate _ => if r then 2 else 5 end.
Definition qw (r : bool) (q : request) : nat := match q with LSetup _ => if r then 6 else 3 | LClose _ => if r then 1 else 2 end.
Definition ew (r : bool) (e : endp) : nat :=
  (length (e_pre e) * (if r then 1 else 4) + length (e_spawn e) * 3 + sum_list_with (qw r) (e_lock e))%nat.
Definition work (w : world) : nat :=
  (ew true (w_r w) + ew false (w_i w) + sum_list_with (pw true) (to_r w) + sum_list_with (pw false) (to_i w))%nat.
Lemma ew_step r e a e' ps ok : LI r e → internal (At r a) ∨ (∃ p, a = Arrive p) → act_step r e a = Some (e', ps, ok) →
  (ew r e' + sum_list_with (pw (negb r)) ps < ew r e + match a with Arrive p => pw r p | _ => 0 end)%nat.
Proof.
  intros HL Hi E. unfold ew. destruct a as [| |i m|i|i| | |i| |p]; try (exfalso; destruct Hi as [Hi|[? ?]]; [exact Hi|done]); cbn [act_step] in E.
  - destruct (e_lock e) as [|[i|i] rest] eqn:El; [done| |done]. destruct (e_open e) as [[|id'|]|] eqn:Eo; try done.
    destruct r; injection E as <- <- <-; fields; cbn [sum_list_with qw pw negb]; lia.
  - destruct (e_pre e) as [|i rest] eqn:Ep; [done|]. destruct (e_open e) as [[|id'|id']|] eqn:Eo; try done.
    + pose proof (li_phase _ _ HL) as Hp. unfold phase_ok in Hp. rewrite Eo in Hp. destruct Hp as [-> _].
      injection E as <- <- <-. fields. rewrite sum_list_with_app. cbn [sum_list_with qw length]. lia.
    + injection E as <- <- <-. fields. cbn [sum_list_with length]. destruct r; lia.
  - case_bool_decide as Hin; [|done]. injection E as <- <- <-. fields. rewrite sum_list_with_app.
    assert (Hf : (length (filter (λ j, j ≠ i) (e_spawn e)) < length (e_spawn e))%nat) by (apply (filter_length_lt _ _ i); [done|by intros []]).
    destruct r; cbn [sum_list_with qw pw negb]; lia.
  - destruct (e_lock e) as [|[i|i] rest] eqn:El; [done|done|].
    repeat case_bool_decide; simplify_eq; fields; destruct r; cbn [sum_list_with qw pw negb]; lia.
  - destruct p as [i m|i|i]; [repeat case_match; simplify_eq; fields; cbn [sum_list_with pw]; lia..|].
    destruct (e_pre e) eqn:Ep; [|done]. injection E as <- <- <-. fields. cbn [sum_list_with pw length]. destruct r; lia.
Qed.
Lemma internal_cancel ev : internal ev → ∀ r, ev ≠ At r Cancel.
Proof. intros H r ->. done. Qed.
Lemma work_step w ev w' : WI w → internal ev → step w ev = Some w' → (work w' < work w)%nat.
Proof.
  intros H Hi E. unfold work. destruct ev as [[|] a|[|]].
  - assert (E' : ∃ e' ps ok, act_step true (w_r w) a = Some (e', ps, ok) ∧ w' = mk_world e' (w_i w) (to_r w) (to_i w ++ ps) (w_ok w && ok)).
    { destruct a; cbn [step] in E; try done; case_match; try done; case_match; simplify_eq; case_match; simplify_eq; by repeat eexists. }
    destruct E' as (e' & ps & ok & Ea & ->). pose proof (ew_step _ _ _ _ _ _ (wi_r _ H) (or_introl Hi) Ea) as Hw. cbn [w_r w_i to_r to_i negb] in *.
    rewrite sum_list_with_app. destruct a; try done; lia.
  - assert (E' : ∃ e' ps ok, act_step false (w_i w) a = Some (e', ps, ok) ∧ w' = mk_world (w_r w) e' (to_r w ++ ps) (to_i w) (w_ok w && ok)).
    { destruct a; cbn [step] in E; try done; case_match; try done; case_match; simplify_eq; case_match; simplify_eq; by repeat eexists. }
    destruct E' as (e' & ps & ok & Ea & ->). pose proof (ew_step _ _ _ _ _ _ (wi_i _ H) (or_introl Hi) Ea) as Hw. cbn [w_r w_i to_r to_i negb] in *.
    rewrite sum_list_with_app. destruct a; try done; lia.
  - cbn [step] in E. destruct (to_r w) as [|p rest] eqn:Eq; [done|]. destruct (act_step true (w_r w) (Arrive p)) as [[[e' ps] ok]|] eqn:Ea; [|done]. injection E as <-.
    pose proof (ew_step _ _ _ _ _ _ (wi_r _ H) (or_intror (ex_intro _ p eq_refl)) Ea) as Hw. cbn [w_r w_i to_r to_i negb sum_list_with] in *.
    rewrite sum_list_with_app. lia.
  - cbn [step] in E. destruct (to_i w) as [|p rest] eqn:Eq; [done|]. destruct (act_step false (w_i w) (Arrive p)) as [[[e' ps] ok]|] eqn:Ea; [|done]. injection E as <-.
    pose proof (ew_step _ _ _ _ _ _ (wi_i _ H) (or_intror (ex_intro _ p eq_refl)) Ea) as Hw. cbn [w_r w_i to_r to_i negb sum_list_with] in *.
    rewrite sum_list_with_app. lia.
Qed.
Lemma work_run es : ∀ w w', WI w → Forall internal es → run w es = Some w' → (length es + work w' <= work w)%nat.
Proof.
  induction es as [|ev es IH]; intros w w' H Hi E; cbn in E; [injection E as <-; cbn; lia|]. apply Forall_cons in Hi as [H1 H2].
  destruct (step w ev) as [w1|] eqn:Es; [|done]. pose proof (work_step _ _ _ H H1 Es).
  specialize (IH w1 w' (WI_step _ _ _ H (internal_cancel _ H1) Es) H2 E). cbn [length]. lia.
Qed.
