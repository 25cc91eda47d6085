(** Application messages of a group (C24). *)
From Coq Require Import ZifyBool ZifyNat ZifyN.
From stdpp Require Import prelude gmap.
From Verif Require Import Bytes Tree_Model Tree_Spec TreeMath_Proofs TreePath_Proofs Tree_Proofs TreeUpd_Proofs
  TreeApply_Proofs TreeWorld_Proofs.
Local Open Scope N_scope.

Section Msg.
  Context (P : prims) (L : laws P).
  Notation group := (group P).
  Notation log_t := (list (app_message * list N)).

  Lemma deliver_send c ms ms' : deliver P c ms = Some ms' → Forall (λ g, g_send P g = 0) ms'.
  Proof using.
    revert ms'. induction ms as [|g ms IH]; intros ms'; cbn [deliver]; [intros [= <-]; constructor|].
    destruct (process_commit P g c) as [g' [[]| |]] eqn:E; try done. destruct (deliver P c ms) as [r|]; [|done].
    intros [= <-]. constructor; [|by apply IH]. unfold process_commit in E.
    destruct (apply_proposals P (g_tree P g) (cm_proposals c)); [|done].
    destruct (apply_update_path P _ _ _) as [t2 [[r0 lr]| |]]; try done. by injection E as <-.
  Qed.

  Lemma step_fresh ms o ms' : step P ms o = Some ms' →
    (ms' = ms ∧ ¬ effective P ms o) ∨ Forall (λ g, g_send P g = 0) ms' ∧ ∃ g g', g ∈ ms ∧ g' ∈ ms' ∧ g_epoch P g' = g_epoch P g + 1.
  Proof using.
    destruct o as [who fresh rs|who fresh rs cid joiner wr|who fresh rs target]; cbn [step];
      (destruct (ms !! who) as [g|] eqn:Eg; [|intros [= <-]; left; split; [done|]; cbn [effective]; rewrite Eg; (by intros [? ?]) || (by intros (? & ? & _))]); pose proof (elem_of_list_lookup_2 _ _ _ Eg) as Hg.
    - unfold commit_update. destruct (generate_update_path _ _ _ _ _) as [t [[[p r] own]| |]]; try done.
      destruct (deliver P _ _) as [rest|] eqn:Ed; [|done]. intros [= <-]. right. split.
      + constructor; [done|]. by eapply deliver_send.
      + exists g. eexists. split; [done|]. split; [by left|done].
    - unfold add_member. destruct (add_leaf _ _ _) as [[t1 j]|]; [|done].
      destruct (generate_update_path _ _ _ _ _) as [t2 [[[p r] own]| |]]; try done.
      destruct (direct_path _ _) as [cp|]; [|done]. destruct (direct_path j _) as [jp|]; [|done].
      destruct (head _) as [lca|]; [|done]. destruct (own !! lca) as [ls|]; [|done].
      destruct (seal P wr _ _) as [ct|]; [|done].
      destruct (join_from_welcome P _ _) as [gj| |] eqn:Ej; try done.
      destruct (deliver P _ _) as [rest|] eqn:Ed; [|done]. intros [= <-]. right. split.
      + constructor; [done|]. constructor; [|by eapply deliver_send].
        unfold join_from_welcome in Ej. destruct (hopen P _ _) as [[|a [|b [|]]]|]; try done.
        destruct (direct_path _ _) as [dp|]; [|done]. destruct (position _ _) as [pos|]; [|done].
        destruct (climb_secrets P _ _ _) as [r0 o0]. by injection Ej as <-.
      + exists g. eexists. split; [done|]. split; [by left|done].
    - destruct (_ || _) eqn:Eb.
      { intros [= <-]. left. split; [done|]. intros (g' & Eg' & H1 & H2). rewrite Eg in Eg'. injection Eg' as <-.
        apply orb_true_iff in Eb as [Eb%bool_decide_eq_true|Eb%N.leb_le]; [done|lia]. } unfold remove_member.
      destruct (remove_leaf _ _ _) as [t1|]; [|done].
      destruct (generate_update_path _ _ _ _ _) as [t [[[p r] own]| |]]; try done.
      destruct (deliver P _ _) as [rest|] eqn:Ed; [|done]. intros [= <-]. right. split.
      + constructor; [done|]. by eapply deliver_send.
      + exists g. eexists. split; [done|]. split; [by left|done].
  Qed.

  (** only the counter differs *)
  Definition same_but_send (g g' : group) : Prop :=
    g_tree P g' = g_tree P g ∧ g_leaf P g' = g_leaf P g ∧ g_own P g' = g_own P g ∧ g_epoch P g' = g_epoch P g ∧
    g_secrets P g' = g_secrets P g ∧ g_transcript P g' = g_transcript P g.
  Lemma WInv_send ms who g g' : WInv P ms → ms !! who = Some g → same_but_send g g' → WInv P (<[who := g']> ms).
  Proof using.
    intros HW Hg (E1 & E2 & E3 & E4 & E5 & E6).
    assert (Hl : g_leaf P <$> <[who := g']> ms = g_leaf P <$> ms).
    { rewrite list_fmap_insert. apply list_insert_id. rewrite list_lookup_fmap, Hg, E2. done. }
    destruct (wi_view _ _ HW) as (t & e & sec & h & HT & Ha & Hm & Hlv). split; [|rewrite Hl; apply HW].
    exists t, e, sec, h. split_and!; [done| | |rewrite Hl; done].
    - apply Forall_insert; [done|]. pose proof (Forall_lookup_1 _ _ _ _ Ha Hg) as (A1 & A2 & A3 & A4).
      split_and!; congruence.
    - apply Forall_insert; [done|]. rewrite E2, E3. exact (Forall_lookup_1 _ _ _ _ Hm Hg).
  Qed.

  Definition count (e i : N) (log : log_t) : N := N.of_nat (length (sent_by e i log)).
  Definition gens (e i : N) (log : log_t) : list N := am_gen <$> sent_by e i log.

  Record LInv (ms : list group) (log : log_t) : Prop := mk_LInv {
    li_w : WInv P ms;
    li_next : ∀ g, g ∈ ms → g_send P g = count (g_epoch P g) (g_leaf P g) log mod 2 ^ 32;
    li_past : ∀ g a m, g ∈ ms → (a, m) ∈ log → am_epoch a <= g_epoch P g;
    li_gens : ∀ e i, gens e i log = (λ k, N.of_nat k mod 2 ^ 32) <$> seq 0 (length (sent_by e i log));
    li_body : ∀ g a m, g ∈ ms → (a, m) ∈ log → am_epoch a = g_epoch P g →
      am_body a = app_seal P (es_encryption P (g_secrets P g)) (am_sender a) (am_gen a) m }.

  Lemma WInv_epoch ms g1 g2 : WInv P ms → g1 ∈ ms → g2 ∈ ms → g_epoch P g1 = g_epoch P g2 ∧ g_secrets P g1 = g_secrets P g2.
  Proof using.
    intros HW H1 H2. destruct (wi_view _ _ HW) as (t & e & sec & h & HT & Ha & Hm & Hlv).
    rewrite Forall_forall in Ha. destruct (Ha _ H1) as (? & ? & ? & ?), (Ha _ H2) as (? & ? & ? & ?). split; congruence.
  Qed.
  Lemma WInv_leaf_inj ms j k g1 g2 : WInv P ms → ms !! j = Some g1 → ms !! k = Some g2 → g_leaf P g1 = g_leaf P g2 → j = k.
  Proof using.
    intros HW H1 H2 E. eapply (NoDup_lookup (g_leaf P <$> ms)); [apply HW| |]; rewrite list_lookup_fmap.
    - rewrite H1. done.
    - rewrite H2. cbn. by rewrite E.
  Qed.

  Lemma LInv_founded cid s : LInv (founded P cid s) [].
  Proof using.
    split.
    - apply founded_ok.
    - intros g ->%elem_of_list_singleton. done.
    - intros g a m _ H. by apply elem_of_nil in H.
    - done.
    - intros g a m _ H. by apply elem_of_nil in H.
  Qed.

  Lemma sent_by_snoc e i log a m : sent_by e i (log ++ [(a, m)]) =
    sent_by e i log ++ (if decide (am_epoch a = e ∧ am_sender a = i) then [a] else []).
  Proof using.
    unfold sent_by. rewrite fmap_app, filter_app. reflexivity.
  Qed.

  Lemma LInv_step ms log h : LInv ms log → ∃ ms' log', hstep P (ms, log) h = Some (ms', log') ∧ LInv ms' log'.
  Proof using L.
    intros HI. destruct h as [o|who m]; cbn [hstep fst snd].
    - destruct (step_ok P L ms o (li_w _ _ HI)) as (ms' & Hs & HW' & _). rewrite Hs. eexists _, _. split; [done|].
      destruct (step_fresh _ _ _ Hs) as [[-> _]|(Hz & g0 & g0' & Hg0 & Hg0' & He)]; [done|].
      assert (Hep : ∀ g g', g ∈ ms → g' ∈ ms' → g_epoch P g' = g_epoch P g + 1).
      { intros g g' Hg Hg'. destruct (WInv_epoch _ _ _ (li_w _ _ HI) Hg Hg0) as [E1 _].
        destruct (WInv_epoch _ _ _ HW' Hg' Hg0') as [E2 _]. lia. }
      assert (Hnew : ∀ g' a m, g' ∈ ms' → (a, m) ∈ log → am_epoch a < g_epoch P g').
      { intros g' a m Hg' Ha. rewrite (Hep _ _ Hg0 Hg'). pose proof (li_past _ _ HI _ _ _ Hg0 Ha). lia. }
      split; [done| | |apply HI|].
      + intros g' Hg'. rewrite Forall_forall in Hz. rewrite (Hz _ Hg'). symmetry.
        assert (sent_by (g_epoch P g') (g_leaf P g') log = []) as E.
        { unfold sent_by. apply elem_of_nil_inv. intros a Ha. apply elem_of_list_filter in Ha as [[Ha _] Hin].
          apply elem_of_list_fmap in Hin as ([a' m] & -> & Hin). specialize (Hnew _ _ _ Hg' Hin). cbn in Ha. lia. }
        unfold count. rewrite E. done.
      + intros g' a m Hg' Ha. specialize (Hnew _ _ _ Hg' Ha). lia.
      + intros g' a m Hg' Ha Ee. specialize (Hnew _ _ _ Hg' Ha). lia.
    - destruct (ms !! who) as [g|] eqn:Eg; [|by exists ms, log].
      cbn [encrypt_message]. eexists _, _. split; [done|]. set (g' := mk_group _ _ _ _ _ _ _ _). set (a := mk_app _ _ _ _).
      assert (Hsame : same_but_send g g') by done.
      pose proof (WInv_send _ _ _ _ (li_w _ _ HI) Eg Hsame) as HW'.
      pose proof (elem_of_list_lookup_2 _ _ _ Eg) as Hg.
      assert (Hback : ∀ k, k ∈ <[who := g']> ms → k = g' ∨ ∃ j, ms !! j = Some k ∧ j ≠ who).
      { intros k Hk. apply elem_of_list_lookup in Hk as [j Hj]. destruct (decide (j = who)) as [->|Hjw].
        - left. rewrite list_lookup_insert in Hj by (by eapply lookup_lt_Some). by injection Hj as <-.
        - right. rewrite list_lookup_insert_ne in Hj by done. eauto. }
      assert (Hep : ∀ k, k ∈ <[who := g']> ms → g_epoch P k = g_epoch P g ∧ g_secrets P k = g_secrets P g).
      { intros k [->|(j & Hj & _)]%Hback; [done|]. apply elem_of_list_lookup_2 in Hj. by eapply WInv_epoch; [apply HI| |]. }
      split; [done| | | |].
      + intros k Hk. destruct (Hback _ Hk) as [->|(j & Hj & Hjw)].
        * unfold count. rewrite sent_by_snoc. change (g_send P g') with ((g_send P g + 1) mod 2 ^ 32).
          change (g_epoch P g') with (g_epoch P g). change (g_leaf P g') with (g_leaf P g).
          rewrite decide_True by done. rewrite app_length. cbn [length].
          pose proof (li_next _ _ HI _ Hg) as E. unfold count in E. rewrite E. rewrite N.add_mod_idemp_l by (by apply N.pow_nonzero).
          f_equal. lia.
        * unfold count. rewrite sent_by_snoc. rewrite decide_False.
          -- rewrite app_nil_r. apply (li_next _ _ HI). by eapply elem_of_list_lookup_2.
          -- cbn. intros [_ E]. apply Hjw. by eapply WInv_leaf_inj; [apply HI| | |].
      + intros k a' m' Hk Hin. destruct (Hep _ Hk) as [-> _]. apply elem_of_app in Hin as [Hin|Hin].
        * by eapply (li_past _ _ HI).
        * apply elem_of_list_singleton in Hin as [= -> ->]. cbn. lia.
      + intros e i. unfold gens. rewrite sent_by_snoc. destruct (decide _) as [[E1 E2]|_]; [|rewrite app_nil_r; apply HI].
        rewrite fmap_app, app_length. cbn [length fmap list_fmap]. rewrite Nat.add_1_r, seq_S, fmap_app.
        pose proof (li_gens _ _ HI e i) as Eg'. unfold gens in Eg'. rewrite Eg'. f_equal. cbn [fmap list_fmap]. f_equal.
        cbn [a am_epoch am_sender am_gen] in E1, E2 |- *. rewrite (li_next _ _ HI _ Hg). unfold count.
        subst e i. done.
      + intros k a' m' Hk Hin Ee. destruct (Hep _ Hk) as [Ek Es]. rewrite Es. apply elem_of_app in Hin as [Hin|Hin].
        * apply (li_body _ _ HI _ _ _ Hg Hin). congruence.
        * apply elem_of_list_singleton in Hin as [= -> ->]. done.
  Qed.

  Lemma LInv_run hs : ∀ st, LInv st.1 st.2 → ∃ st', hrun P st hs = Some st' ∧ LInv st'.1 st'.2.
  Proof using L.
    induction hs as [|h hs IH]; intros [ms log] HI; cbn [hrun]; [by eexists|].
    destruct (LInv_step ms log h HI) as (ms' & log' & Hs & HI'). rewrite Hs. apply IH. exact HI'.
  Qed.

  Lemma hrun_app st a b : hrun P st (a ++ b) = match hrun P st a with Some st' => hrun P st' b | None => None end.
  Proof using.
    revert st. induction a as [|h a IH]; intros st; cbn [hrun app]; [done|]. destruct (hstep P st h); [apply IH|done].
  Qed.

  (** the messages of a member that is alone *)
  Lemma send_alone ps : ∀ g log, g_send P g < 2 ^ 32 → ∃ g', hrun P ([g], log) (HSend P 0 <$> ps) =
    Some ([g'], log ++ imap (λ k m, let n := (g_send P g + N.of_nat k) mod 2 ^ 32 in
      (mk_app (g_epoch P g) (g_leaf P g) n (app_seal P (es_encryption P (g_secrets P g)) (g_leaf P g) n m), m)) ps).
  Proof using.
    induction ps as [|m ps IH]; intros g log Hg; cbn [fmap list_fmap hrun].
    { exists g. by rewrite app_nil_r. }
    cbn [hstep fst snd lookup list_lookup encrypt_message insert list_insert].
    match goal with |- context [hrun P ([?x], ?l) _] => destruct (IH x l) as (g' & E) end.
    { cbn [g_send]. apply N.mod_lt. by apply N.pow_nonzero. }
    exists g'. rewrite E. do 2 f_equal. rewrite <- app_assoc. f_equal. rewrite imap_cons. cbn [app].
    cbn [g_send g_epoch g_leaf g_secrets]. f_equal.
    - rewrite N.add_0_r, N.mod_small by done. done.
    - apply imap_ext. intros k x Hx. cbv beta zeta. rewrite (N.add_mod_idemp_l (g_send P g + 1)) by (by apply N.pow_nonzero).
      replace (g_send P g + 1 + N.of_nat k) with (g_send P g + N.of_nat (S k)) by lia. done.
  Qed.

  (** the pairs (generation) of one sender in one epoch repeat only after 2^32 messages *)
  Lemma LInv_nodup ms log : LInv ms log →
    (∀ e i, count e i log <= 2 ^ 32) →
    ∀ j k a b, log.*1 !! j = Some a → log.*1 !! k = Some b → am_epoch a = am_epoch b → am_sender a = am_sender b →
      am_gen a = am_gen b → j = k.
  Proof using.
    intros HI Hc j k a b Hj Hk Ee Es Eg. destruct (decide (j = k)) as [|Hne]; [done|exfalso].
    pose proof (Hc (am_epoch a) (am_sender a)) as Hlim. pose proof (li_gens _ _ HI (am_epoch a) (am_sender a)) as Hg.
    assert (Hnd : NoDup (gens (am_epoch a) (am_sender a) log)).
    { rewrite Hg. apply NoDup_alt. intros x y z Hx Hy. rewrite list_lookup_fmap in Hx, Hy.
      destruct (seq 0 _ !! x) as [u|] eqn:Eu; [|done]. destruct (seq 0 _ !! y) as [v|] eqn:Ev; [|done].
      apply lookup_seq in Eu as [-> Hu]. apply lookup_seq in Ev as [-> Hv]. cbn in Hx, Hy.
      unfold count in Hlim. rewrite N.mod_small in Hx by lia. rewrite N.mod_small in Hy by lia.
      injection Hx as <-. injection Hy as E. lia. }
    assert (Hlt : ∀ j k a b, (j < k)%nat → log.*1 !! j = Some a → log.*1 !! k = Some b → am_epoch a = am_epoch b →
      am_sender a = am_sender b → am_gen a = am_gen b → NoDup (gens (am_epoch a) (am_sender a) log) → False).
    { clear. intros j k a b Hlt Hj Hk Ee Es Eg Hnd. unfold gens, sent_by in Hnd.
      rewrite <- (take_drop k log.*1) in Hnd. rewrite filter_app, fmap_app in Hnd. apply NoDup_app in Hnd as (_ & Hd & _).
      apply (Hd (am_gen a)).
      - apply elem_of_list_fmap. exists a. split; [done|]. apply elem_of_list_filter. split; [done|].
        apply (elem_of_list_lookup_2 _ j). by rewrite lookup_take.
      - apply elem_of_list_fmap. exists b. split; [done|]. apply elem_of_list_filter. split; [done|].
        apply (elem_of_list_lookup_2 _ 0). rewrite lookup_drop. by rewrite Nat.add_0_r. }
    destruct (Nat.lt_total j k) as [H|[H|H]]; [|done|].
    - by eapply (Hlt j k a b).
    - eapply (Hlt k j b a); try done. congruence.
  Qed.
End Msg.

Lemma be4_inj v w : v < 2 ^ 32 → w < 2 ^ 32 → be_enc 4 v = be_enc 4 w → v = w.
Proof.
  intros Hv Hw E. rewrite <- (be_dec_enc 4 v), <- (be_dec_enc 4 w), E; [done| |]; exact Hv || exact Hw.
Qed.
Lemma message_key_input_inj sec sec' i i' g g' : length sec = length sec' → i < 2 ^ 32 → i' < 2 ^ 32 → g < 2 ^ 32 → g' < 2 ^ 32 →
  message_key_input sec i g = message_key_input sec' i' g' → sec = sec' ∧ i = i' ∧ g = g'.
Proof.
  intros Hl Hi Hi' Hg Hg' E. unfold message_key_input in E. apply app_inj_1 in E as [-> E]; [|done].
  apply app_inj_1 in E as [E1 E2]; [|by rewrite !be_enc_length].
  split_and!; [done|by apply be4_inj|by apply be4_inj].
Qed.
