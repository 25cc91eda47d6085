(** Adding and removing slots; the invariant of a whole group. *)
From Coq Require Import ZifyBool ZifyNat ZifyN.
From stdpp Require Import prelude gmap.
From Verif Require Import Tree_Model Tree_Spec TreeMath_Proofs TreePath_Proofs Tree_Proofs TreeUpd_Proofs TreeApply_Proofs.
Local Open Scope N_scope.

Section Proofs.
  Context (P : prims) (L : laws P).
  Notation node := (node (pub P)).
  Notation tree := (list node).
  Notation get := (get P).
  Notation set_node := (set_node P).
  Notation num_leaves := (num_leaves P).
  Notation live := (live P).
  Notation TInv := (TInv P).
  Notation HInv := (HInv P).

  (** ** Adding *)
  Lemma note_unmerged_spec t i dp : NoDup dp → (∀ x, x ∈ dp → x < N.of_nat (length t)) →
    ∃ t', note_unmerged P t i dp = Some t' ∧ length t' = length t ∧
      ∀ z, get t' z = if decide (z ∈ dp) then add_unmerged P i <$> get t z else get t z.
  Proof.
    revert t. induction dp as [|x dp IH]; intros t Hnd Hx; cbn [note_unmerged].
    { exists t. done. }
    apply NoDup_cons in Hnd as [Hxn Hnd]. assert (Hxl : x < N.of_nat (length t)) by (apply Hx; by left).
    destruct (get_is_some P t x Hxl) as [nd Hg]. rewrite Hg, set_node_ok by done.
    destruct (IH (<[N.to_nat x := add_unmerged P i nd]> t)) as (t' & E1 & E2 & E3).
    { done. } { intros y Hy. rewrite insert_length. apply Hx. by right. }
    exists t'. rewrite insert_length in E2. split_and!; [done|done|]. intros z. rewrite E3, get_insert by done.
    destruct (decide (z = x)) as [->|Hz].
    - rewrite decide_False by done. rewrite decide_True by (by left). by rewrite Hg.
    - destruct (decide (z ∈ dp)) as [Hd|Hd].
      + by rewrite decide_True by (by right).
      + rewrite decide_False; [done|]. intros [?|?]%elem_of_cons; done.
  Qed.

  (** the tree [t], with blank nodes in the places up to [w] *)
  Definition gext (t : tree) (w z : N) : option node :=
    match get t z with
    | Some nd => Some nd
    | None => if z <? w then Some Blank else None
    end.

  Record added (t t' : tree) (j : N) (l : leaf_node (pub P)) : Prop := mk_added {
    ad_len : N.of_nat (length t') = node_width (N.max (num_leaves t) (j + 1));
    ad_leaf : get t' (leaf_to_node j) = Some (Leaf (mk_leaf (l_cid l) (l_pub l) j));
    ad_rest : ∀ z, z ≠ leaf_to_node j →
      get t' z = if decide (below z j) then add_unmerged P j <$> gext t (N.of_nat (length t')) z
                 else gext t (N.of_nat (length t')) z }.

  Definition vacant (t : tree) (j : N) : Prop :=
    j = num_leaves t ∨ (j < num_leaves t ∧ get t (leaf_to_node j) = Some Blank).

  Lemma add_leaf_at_ok t j l : TInv t → vacant t j → ∃ t', add_leaf_at P t j l = Some t' ∧ added t t' j l.
  Proof.
    intros HT Hv. pose proof (TInv_pos P t HT) as Hn. destruct (ti_len _ _ HT) as [_ Hlen].
    unfold add_leaf_at. cbv zeta.
    set (t1 := t ++ replicate (N.to_nat (node_width (j + 1)) - length t) Blank).
    assert (Hn1 : 0 < N.max (num_leaves t) (j + 1)) by lia.
    assert (Hl1 : N.of_nat (length t1) = node_width (N.max (num_leaves t) (j + 1))).
    { unfold t1. rewrite app_length, replicate_length. rewrite (node_width_pos _ Hn1), (node_width_pos (j + 1)) by lia.
      rewrite (node_width_pos _ Hn) in Hlen. lia. }
    assert (Hg1 : ∀ z, get t1 z = gext t (N.of_nat (length t1)) z).
    { intros z. unfold gext, Tree_Model.get, t1. destruct (t !! N.to_nat z) as [nd|] eqn:E.
      - by apply lookup_app_l_Some.
      - apply lookup_ge_None in E. rewrite lookup_app_r by done. rewrite app_length, replicate_length.
        destruct (N.ltb_spec z (N.of_nat (length t + (N.to_nat (node_width (j + 1)) - length t)))) as [Hz|Hz].
        + apply lookup_replicate. split; [done|]. lia.
        + apply lookup_replicate_None. lia. }
    assert (Hjl : leaf_to_node j < N.of_nat (length t1)).
    { rewrite Hl1, node_width_pos by done. unfold leaf_to_node. lia. }
    rewrite set_node_ok by done. set (t2 := <[N.to_nat (leaf_to_node j) := _]> t1).
    assert (Hl2 : length t2 = length t1) by (unfold t2; by rewrite insert_length).
    assert (Hn2 : num_leaves t2 = N.max (num_leaves t) (j + 1)).
    { apply num_leaves_len; [done|]. by rewrite Hl2. }
    rewrite Hn2. destruct (paths_spec (N.max (num_leaves t) (j + 1)) j) as (dp & cp & Edp & _ & Hc); [lia|].
    assert (Hdp : ∀ x, x ∈ dp ↔ below x j ∧ x < node_width (N.max (num_leaves t) (j + 1)) ∧ 0 < level x).
    { intros x. apply (climbs_elem _ _ _ _ cp); [lia|done]. }
    rewrite Edp. destruct (note_unmerged_spec t2 j dp) as (t' & E1 & E2 & E3).
    { by eapply climbs_NoDup. }
    { intros x Hx. apply Hdp in Hx. rewrite Hl2, Hl1. apply Hx. }
    assert (Hdl : ∀ q, leaf_to_node q ∉ dp). { eapply dp_not_leaf; [|exact Hc]. lia. }
    exists t'. split; [done|]. rewrite Hl2 in E2. split.
    - by rewrite E2.
    - rewrite E3, decide_False by apply Hdl. unfold t2. rewrite get_insert by done. by rewrite decide_True.
    - intros z Hz. rewrite E3. unfold t2. rewrite get_insert by done. rewrite (decide_False (P := z = leaf_to_node j)) by done.
      rewrite E2, <- Hg1. destruct (decide (z ∈ dp)) as [Hd|Hd].
      + apply Hdp in Hd as (Hb & _). by rewrite decide_True.
      + destruct (decide (below z j)) as [Hb|Hb]; [|done].
        destruct (get t1 z) as [nd|] eqn:Eg; [exfalso|done]. apply Hd.
        apply Hdp. apply (get_lt P) in Eg. split_and!; [done|lia|].
        destruct (leaf_or_nd z) as [(q & -> & _)|Hq]; [|done]. apply below_leaf_eq in Hb. by subst.
  Qed.

  Section Added.
    Context (t t' : tree) (j : N) (l : leaf_node (pub P)).
    Context (HT : TInv t) (Hv : vacant t j) (A : added t t' j l).
    Context (jsec : secret P) (Hl : l_pub l = pk_of P jsec).

    Lemma ad_num : num_leaves t' = N.max (num_leaves t) (j + 1).
    Proof using HT A. apply num_leaves_len; [pose proof (TInv_pos P t HT); lia|apply A]. Qed.
    Lemma ad_longer : (length t <= length t')%nat.
    Proof using HT A.
      pose proof (ad_len _ _ _ _ A) as E. destruct (ti_len _ _ HT) as [_ E']. pose proof (TInv_pos P t HT).
      rewrite node_width_pos in E, E' by lia. lia.
    Qed.
    Lemma vacant_not_live : ¬ live t j.
    Proof using HT Hv.
      intros Hj. destruct Hv as [Ev|[_ Ev]].
      - apply (live_lt P) in Hj; [lia|done].
      - destruct Hj as [l' E]. congruence.
    Qed.
    Lemma ad_live m : live t' m ↔ live t m ∨ m = j.
    Proof using HT A.
      destruct (decide (m = j)) as [->|Hm].
      - split; [by right|]. intros _. eexists. apply (ad_leaf _ _ _ _ A).
      - assert (E : get t' (leaf_to_node m) = gext t (N.of_nat (length t')) (leaf_to_node m)).
        { rewrite (ad_rest _ _ _ _ A) by (unfold leaf_to_node; lia). rewrite decide_False; [done|].
          intros Hb. apply below_leaf_eq in Hb. done. }
        unfold Tree_Spec.live. rewrite E. unfold gext. split.
        + intros [l' E']. left. destruct (get t (leaf_to_node m)) as [nd|]; [eauto|]. by destruct (_ <? _).
        + intros [[l' E']|?]; [|done]. rewrite E'. eauto.
    Qed.
    (** what a parent of the new tree was before *)
    Lemma ad_parent x pk um : get t' x = Some (Parent pk um) →
      ∃ um0, get t x = Some (Parent pk um0) ∧
        (below x j → j ∈ um ∧ um = um0 ++ [j] ∧ j ∉ um0) ∧ (¬ below x j → um = um0).
    Proof using HT Hv A.
      intros E. assert (Hx : x ≠ leaf_to_node j). { intros ->. rewrite (ad_leaf _ _ _ _ A) in E. done. }
      rewrite (ad_rest _ _ _ _ A x Hx) in E. unfold gext in E.
      assert (Hnl := vacant_not_live).
      destruct (get t x) as [nd|] eqn:Eg.
      - destruct (decide (below x j)) as [Hb|Hb].
        + destruct nd as [l'|pk' um'|]; cbn in E; try done.
          assert (j ∉ um'). { intros Hj. destruct (ti_um _ _ HT _ _ _ Eg) as [_ Hu]. by apply Hu in Hj as [_ ?]. }
          rewrite bool_decide_eq_false_2 in E by done. injection E as -> <-. exists um'. split; [done|].
          split; [|done]. intros _. split_and!; [apply elem_of_app; right; by apply elem_of_list_singleton|done|done].
        + injection E as ->. exists um. done.
      - exfalso. destruct (decide _), (_ <? _); cbn in E; congruence.
    Qed.

    Lemma ad_TInv : TInv t'.
    Proof using HT Hv A Hl.
      split.
      - pose proof (ad_len _ _ _ _ A) as E. rewrite ad_num. split; [|done].
        pose proof (TInv_pos P t HT). rewrite node_width_pos in E by lia. lia.
      - intros m nd E pk um ->. destruct (ad_parent _ _ _ E) as (um0 & E0 & _). by eapply (ti_even _ _ HT).
      - intros x nd E Hx l' ->. destruct (decide (x = leaf_to_node j)) as [->|Hn]; [rewrite level_leaf in Hx; lia|].
        rewrite (ad_rest _ _ _ _ A x Hn) in E. unfold gext in E. destruct (get t x) as [nd|] eqn:Eg.
        + assert (nd = Leaf l') as ->.
          { destruct (decide (below x j)); [|congruence]. destruct nd; cbn in E; try congruence. by destruct (bool_decide _). }
          by eapply (ti_odd _ _ HT).
        + destruct (decide _), (_ <? _); cbn in E; congruence.
      - intros x nd pk E Hpk. destruct (decide (x = leaf_to_node j)) as [->|Hn].
        { rewrite (ad_leaf _ _ _ _ A) in E. injection E as <-. injection Hpk as <-. cbn. eauto. }
        destruct nd as [l'|pk' um|]; cbn in Hpk; [| |done].
        + rewrite (ad_rest _ _ _ _ A x Hn) in E. unfold gext in E. destruct (get t x) as [nd|] eqn:Eg.
          * assert (nd = Leaf l') as ->.
            { destruct (decide (below x j)); [|congruence]. destruct nd; cbn in E; try congruence. by destruct (bool_decide _). }
            by eapply (ti_key _ _ HT).
          * destruct (decide _), (_ <? _); cbn in E; congruence.
        + injection Hpk as ->. destruct (ad_parent _ _ _ E) as (um0 & E0 & _). by eapply (ti_key _ _ HT).
      - intros x pk um E. destruct (ad_parent _ _ _ E) as (um0 & E0 & H1 & H2).
        destruct (ti_um _ _ HT _ _ _ E0) as [U1 U2].
        destruct (decide (below x j)) as [Hb|Hb].
        + destruct (H1 Hb) as (_ & -> & Hj). split.
          * apply NoDup_app. split_and!; [done| |apply NoDup_singleton]. intros m Hm ->%elem_of_list_singleton. done.
          * intros m [Hm| ->%elem_of_list_singleton]%elem_of_app; [|split; [done|]; apply ad_live; by right].
            destruct (U2 m Hm). split; [done|]. apply ad_live. by left.
        + rewrite (H2 Hb). split; [done|]. intros m Hm. destruct (U2 m Hm). split; [done|]. apply ad_live. by left.
    Qed.

    Lemma ad_HInv m own : HInv t m own → HInv t' m own.
    Proof using HT Hv A.
      intros HM. assert (m ≠ j) as Hm.
      { intros ->. apply vacant_not_live. destruct (hi_leaf _ _ _ _ HM) as (l' & s' & E & _). by exists l'. }
      split.
      - destruct (hi_leaf _ _ _ _ HM) as (l' & s' & E & E1). exists l', s'. split; [|done].
        rewrite (ad_rest _ _ _ _ A) by (unfold leaf_to_node; lia). rewrite decide_False; [unfold gext; by rewrite E|].
        intros Hb. apply below_leaf_eq in Hb. done.
      - apply (hi_dom _ _ _ _ HM).
      - intros x pk um E Hb. destruct (ad_parent _ _ _ E) as (um0 & E0 & H1 & H2).
        pose proof (hi_key _ _ _ _ HM _ _ _ E0 Hb) as K.
        assert (m ∈ um ↔ m ∈ um0) as Hiff.
        { destruct (decide (below x j)) as [Hbj|Hbj]; [|by rewrite (H2 Hbj)].
          destruct (H1 Hbj) as (_ & -> & _). rewrite elem_of_app, elem_of_list_singleton. tauto. }
        destruct (decide (m ∈ um)), (decide (m ∈ um0)); tauto.
    Qed.
  End Added.

  (** the slot an addition takes *)
  Lemma free_slot_vacant t : TInv t → vacant t (free_slot P t).
  Proof.
    intros HT. unfold free_slot. set (Q := λ i, _ = true).
    destruct (head (filter Q _)) as [i|] eqn:E; cbn [from_option id default]; [right|by left].
    apply head_Some_elem_of in E. apply elem_of_list_filter in E as [E1 E2].
    apply elem_of_list_fmap in E2 as (q & -> & Hq). apply elem_of_seq in Hq. split; [lia|].
    unfold Q in E1. destruct (get t (leaf_to_node (N.of_nat q))) as [[]|] eqn:Eg; try done.
  Qed.

  (** ** Removing *)
  Record removed (t t' : tree) (i : N) : Prop := mk_removed {
    rm_len : length t' = length t;
    rm_blank : ∀ z, below z i → get t' z = (const Blank) <$> get t z;
    rm_rest : ∀ z, ¬ below z i → get t' z = get t z }.

  Lemma blank_all_spec t xs : (∀ x, x ∈ xs → x < N.of_nat (length t)) →
    ∃ t', blank_all P t xs = Some t' ∧ length t' = length t ∧
      ∀ z, get t' z = if decide (z ∈ xs) then Some Blank else get t z.
  Proof.
    revert t. induction xs as [|x xs IH]; intros t Hx; cbn [blank_all].
    { exists t. done. }
    assert (Hxl : x < N.of_nat (length t)) by (apply Hx; by left). rewrite set_node_ok by done.
    destruct (IH (<[N.to_nat x := Blank]> t)) as (t' & E1 & E2 & E3).
    { intros y Hy. rewrite insert_length. apply Hx. by right. }
    exists t'. rewrite insert_length in E2. split_and!; [done|done|]. intros z. rewrite E3, get_insert by done.
    destruct (decide (z ∈ xs)) as [Hd|Hd].
    - by rewrite decide_True by (by right).
    - destruct (decide (z = x)) as [->|Hz].
      + by rewrite decide_True by (by left).
      + rewrite decide_False; [done|]. intros [?|?]%elem_of_cons; done.
  Qed.

  Lemma remove_leaf_ok t i : TInv t → i < num_leaves t → ∃ t', remove_leaf P t i = Some t' ∧ removed t t' i.
  Proof.
    intros HT Hi. unfold remove_leaf.
    assert (Hil : leaf_to_node i < N.of_nat (length t)).
    { apply TInv_lt; [done|]. rewrite node_width_pos by lia. unfold leaf_to_node. lia. }
    rewrite set_node_ok by done. destruct (paths_spec (num_leaves t) i Hi) as (dp & cp & -> & _ & Hc).
    assert (Hdp : ∀ x, x ∈ dp ↔ below x i ∧ x < node_width (num_leaves t) ∧ 0 < level x).
    { intros x. apply (climbs_elem _ _ _ _ cp); done. }
    destruct (blank_all_spec (<[N.to_nat (leaf_to_node i) := Blank]> t) dp) as (t' & E1 & E2 & E3).
    { intros x Hx. rewrite insert_length. apply Hdp in Hx as (_ & Hx & _).
      by apply TInv_lt. }
    exists t'. split; [done|]. rewrite insert_length in E2. split; [done| |].
    - intros z Hz. rewrite E3, get_insert by done. destruct (decide (z ∈ dp)) as [Hd|Hd].
      + apply Hdp in Hd as (_ & Hd & _).
        destruct (TInv_get P t z HT Hd) as [nd ->]. done.
      + destruct (decide (z = leaf_to_node i)) as [->|Hn].
        * destruct (get_is_some P t _ Hil) as [nd ->]. done.
        * destruct (get t z) as [nd|] eqn:E; [exfalso|done]. apply Hd. apply Hdp.
          split_and!; [done|apply TInv_lt; [done|]; exact (get_lt P _ _ _ E)|].
          destruct (leaf_or_nd z) as [(q & -> & _)|Hq]; [|done]. apply below_leaf_eq in Hz. by subst.
    - intros z Hz. rewrite E3, get_insert by done. rewrite !decide_False; [done| |].
      + intros ->. apply Hz, below_leaf_refl.
      + intros Hd. apply Hdp in Hd as (Hd & _); done.
  Qed.

  Section Removed.
    Context (t t' : tree) (i : N) (HT : TInv t) (R : removed t t' i).
    Lemma rm_num : num_leaves t' = num_leaves t.
    Proof using R. unfold Tree_Model.num_leaves. by rewrite (rm_len _ _ _ R). Qed.
    Lemma rm_some x nd : get t' x = Some nd → nd ≠ Blank → get t x = Some nd ∧ ¬ below x i.
    Proof using R.
      intros E Hn. destruct (decide (below x i)) as [Hb|Hb].
      - rewrite (rm_blank _ _ _ R x Hb) in E. destruct (get t x); cbn in E; congruence.
      - by rewrite (rm_rest _ _ _ R x Hb) in E.
    Qed.
    Lemma rm_live m : live t' m ↔ live t m ∧ m ≠ i.
    Proof using R.
      destruct (decide (m = i)) as [->|Hm].
      - split; [|by intros [_ ?]]. intros [l E]. apply rm_some in E as [_ E]; [|done]. exfalso. apply E, below_leaf_refl.
      - unfold Tree_Spec.live. rewrite (rm_rest _ _ _ R); [tauto|]. intros Hb. apply below_leaf_eq in Hb. done.
    Qed.
    Lemma rm_TInv : TInv t'.
    Proof using HT R.
      split.
      - rewrite rm_num, (rm_len _ _ _ R). apply HT.
      - intros m nd E pk um ->. apply rm_some in E as [E _]; [|done]. by eapply (ti_even _ _ HT).
      - intros x nd E Hx l ->. apply rm_some in E as [E _]; [|done]. by eapply (ti_odd _ _ HT).
      - intros x nd pk E Hpk. apply rm_some in E as [E _]; [|by intros ->]. by eapply (ti_key _ _ HT).
      - intros x pk um E. apply rm_some in E as [E Hb]; [|done]. destruct (ti_um _ _ HT _ _ _ E) as [U1 U2].
        split; [done|]. intros m Hm. destruct (U2 m Hm) as [V1 V2]. split; [done|]. apply rm_live. split; [done|]. by intros ->.
    Qed.
    Lemma rm_HInv m own : m ≠ i → HInv t m own → HInv t' m own.
    Proof using R.
      intros Hm HM. split.
      - destruct (hi_leaf _ _ _ _ HM) as (l & s & E & E1). exists l, s. split; [|done].
        rewrite (rm_rest _ _ _ R); [done|]. intros Hb. apply below_leaf_eq in Hb. done.
      - apply (hi_dom _ _ _ _ HM).
      - intros x pk um E Hb. apply rm_some in E as [E _]; [|done]. by apply (hi_key _ _ _ _ HM).
    Qed.
  End Removed.

  (** ** The whole group *)
  Notation group := (group P).
  Definition agrees (t : tree) (e : N) (sec : epoch_secrets P) (h : hash P) (g : group) : Prop :=
    g_tree P g = t ∧ g_epoch P g = e ∧ g_secrets P g = sec ∧ g_transcript P g = h.
  Record WInv (ms : list group) : Prop := mk_WInv {
    wi_view : ∃ t e sec h, TInv t ∧ Forall (agrees t e sec h) ms ∧
      Forall (λ g, HInv t (g_leaf P g) (g_own P g)) ms ∧ (∀ i, live t i ↔ i ∈ g_leaf P <$> ms);
    wi_nodup : NoDup (g_leaf P <$> ms) }.

  (** [learns dp fresh k k']: after a commit with direct path [dp] member [k] has
      become [k'], in the same slot, and knows no more than the path secrets of
      the nodes above the slot *)
  Definition learns (dp : list N) (fresh : secret P) (k k' : group) : Prop :=
    g_leaf P k' = g_leaf P k ∧
    ∀ x s, g_own P k' !! x = Some s → g_own P k !! x = Some s ∨
      ∃ d, dp !! d = Some x ∧ below x (g_leaf P k) ∧ chain P fresh (length dp) !! d = Some s.

  (** delivery of a commit with proposals [pr] that lead from [t] to [t1] *)
  Lemma deliver_ok t t1 t' e sec h c root dp fresh ms :
    apply_proposals P t (cm_proposals c) = Some t1 →
    Forall (agrees t e sec h) ms →
    Forall (λ g, ∃ learned, apply_update_path P t1 (cm_path c) (g_own P g) = (t', Ok (root, learned)) ∧
                  HInv t' (g_leaf P g) (learned ∪ g_own P g) ∧
                  (∀ x s, learned !! x = Some s → ∃ d, dp !! d = Some x ∧ below x (g_leaf P g) ∧
                     chain P fresh (length dp) !! d = Some s)) ms →
    ∃ ms', deliver P c ms = Some ms' ∧
      Forall (agrees t' (e + 1) (derive_epoch P root (es_init P sec) (transcript P h c)) (transcript P h c)) ms' ∧
      Forall (λ g, HInv t' (g_leaf P g) (g_own P g)) ms' ∧ Forall2 (learns dp fresh) ms ms'.
  Proof.
    intros Hp. induction ms as [|g ms IH]; intros Ha Hm; cbn [deliver].
    { exists []. split_and!; constructor. }
    apply Forall_cons in Ha as [(E1 & E2 & E3 & E4) Ha]. apply Forall_cons in Hm as [(learned & Hu & Hh & Hlr) Hm].
    destruct (IH Ha Hm) as (ms' & D1 & D3 & D4 & D5).
    unfold process_commit. rewrite E1, Hp, Hu, D1. eexists. split; [done|]. split_and!.
    - constructor; [|done]. unfold agrees, advance_epoch. cbn [g_tree g_epoch g_secrets g_transcript]. by rewrite E2, E3, E4.
    - constructor; done.
    - constructor; [|done]. split; [done|]. cbn [advance_epoch g_own]. intros x s.
      rewrite lookup_union_Some_raw. intros [Hx|[_ Hx]]; [right; by apply Hlr|by left].
  Qed.

  (** Everything known about a commit made by [g] after the proposals [pr] have
      led from [t] to [t1], and processed by [ks] *)
  Record committed (t t1 : tree) (e : N) (sec : epoch_secrets P) (h : hash P) (g : group) (ks : list group)
      (pr : list (proposal (pub P))) (fresh : secret P) (rs : nat → nat → rnd P)
      (t' : tree) (dp cp : list N) (nodes : list (path_node (pub P) (ctext P))) (root : secret P)
      (own : gmap N (secret P)) (g' : group) (ks' : list group) : Prop := mk_committed {
    cd_gen : generate_update_path P t1 (g_leaf P g) fresh rs =
      (t', Ok (mk_update_path (g_leaf P g) (pk_of P fresh) nodes, root, own));
    cd_dp : direct_path (g_leaf P g) (num_leaves t1) = Some dp;
    cd_cp : copath (g_leaf P g) (num_leaves t1) = Some cp;
    cd_pub : ∀ j pn, nodes !! j = Some pn → ∃ ps, chain P fresh (length dp) !! j = Some ps ∧ pn_pub pn = pk_of P ps;
    cd_climbs : climbs (num_leaves t1) (g_leaf P g) 0 dp cp;
    cd_rekeyed : rekeyed P t1 t' (g_leaf P g) fresh dp;
    cd_TInv : TInv t';
    cd_live : ∀ m, live t' m ↔ live t1 m;
    cd_root : root = default (derive P fresh) (last (chain P fresh (length dp)));
    cd_nodes : length nodes = length dp;
    cd_cts : ∀ j y ps, cp !! j = Some y → chain P fresh (length dp) !! j = Some ps →
      ∃ pn rec, nodes !! j = Some pn ∧ resolution P t1 y = Some rec ∧ Forall2 (sealed P t1 ps) rec (pn_cts pn);
    cd_own_leaf : own !! leaf_to_node (g_leaf P g) = Some fresh;
    cd_own_path : ∀ d x, dp !! d = Some x → own !! x = chain P fresh (length dp) !! d;
    cd_own_rest : ∀ z, z ∉ dp → z ≠ leaf_to_node (g_leaf P g) → own !! z = None;
    cd_g' : g' = advance_epoch P g t' own root
      (mk_commit pr (mk_update_path (g_leaf P g) (pk_of P fresh) nodes));
    cd_view : ∃ h', h' = transcript P h (mk_commit pr (mk_update_path (g_leaf P g) (pk_of P fresh) nodes)) ∧
      Forall (agrees t' (e + 1) (derive_epoch P root (es_init P sec) h') h') (g' :: ks');
    cd_HInv : Forall (λ k, HInv t' (g_leaf P k) (g_own P k)) (g' :: ks');
    cd_deliver : deliver P (mk_commit pr (mk_update_path (g_leaf P g) (pk_of P fresh) nodes)) ks = Some ks';
    cd_learns : Forall2 (learns dp fresh) ks ks' }.

  Lemma cd_leaves t t1 e sec h g ks pr fresh rs t' dp cp nodes root own g' ks' :
    committed t t1 e sec h g ks pr fresh rs t' dp cp nodes root own g' ks' →
    g_leaf P <$> (g' :: ks') = g_leaf P <$> (g :: ks).
  Proof.
    intros C. rewrite !fmap_cons. f_equal; [by rewrite (cd_g' _ _ _ _ _ _ _ _ _ _ _ _ _ _ _ _ _ _ C)|].
    pose proof (cd_learns _ _ _ _ _ _ _ _ _ _ _ _ _ _ _ _ _ _ C) as F. clear C.
    induction F as [|k k' l l' [E _] F IH]; [done|]. rewrite !fmap_cons. by f_equal.
  Qed.

  (** one commit, after the proposals have led to [t1]; [ks] are the members
      who process it *)
  Lemma commit_ok t t1 e sec h g ks pr fresh rs :
    TInv t1 → live t1 (g_leaf P g) → g_secrets P g = sec → g_epoch P g = e → g_transcript P g = h →
    apply_proposals P t pr = Some t1 →
    Forall (agrees t e sec h) ks → Forall (λ k, HInv t1 (g_leaf P k) (g_own P k)) ks →
    g_leaf P g ∉ g_leaf P <$> ks →
    ∃ t' dp cp nodes root own g' ks', committed t t1 e sec h g ks pr fresh rs t' dp cp nodes root own g' ks'.
  Proof using L.
    intros HT Hi Es Ee Eh Hp Ha Hk Hg.
    destruct (generate_ok P L t1 (g_leaf P g) fresh rs HT Hi)
      as (dp & cp & t' & nodes & own & Edp & Ecp & Hc & Eg & R & Hnl & Hct & Hpub & O1 & O2 & O3).
    pose proof (rk_TInv P t1 t' _ _ _ _ HT Hi Hc R) as HT'.
    set (root := default (derive P fresh) (last (chain P fresh (length dp)))) in *.
    set (c := mk_commit pr (mk_update_path (g_leaf P g) (pk_of P fresh) nodes)).
    destruct (deliver_ok t t1 t' e sec h c root dp fresh ks) as (ks' & D1 & D2 & D3 & D4); [done|done| |].
    { cbn [cm_path c]. apply Forall_forall. intros k Hkin. rewrite Forall_forall in Hk. specialize (Hk k Hkin). cbv beta in Hk.
      assert (Hne : g_leaf P k ≠ g_leaf P g).
      { intros E. apply Hg. rewrite <- E. by apply elem_of_list_fmap_1. }
      exact (apply_ok P L t1 t' (g_leaf P g) fresh dp cp nodes (g_leaf P k) (g_own P k) HT Hi Edp Ecp Hc R Hnl Hct Hpub Hk Hne). }
    exists t', dp, cp, nodes, root, own. eexists _, ks'. split; try done.
    - by eapply rk_live.
    - exists (transcript P h c). split; [done|]. constructor; [|done].
      unfold agrees, advance_epoch. cbn [g_tree g_epoch g_secrets g_transcript]. by rewrite Es, Ee, Eh.
    - constructor; [|done]. cbn [advance_epoch g_leaf g_own]. exact (rk_HInv P t1 t' _ fresh dp cp HT Hi Hc R own O1 O2 O3).
  Qed.

  Lemma fmap_delete {A B} (f : A → B) (l : list A) i : f <$> delete i l = delete i (f <$> l).
  Proof. revert i. induction l as [|a l IH]; intros [|i]; cbn; [done|done|done|]. f_equal. apply IH. Qed.
  Lemma elem_of_delete_inv {A} (l : list A) i x : x ∈ delete i l → x ∈ l.
  Proof.
    revert i. induction l as [|a l IH]; intros [|i] Hx; cbn in *; [done|done|by right|].
    apply elem_of_cons in Hx as [->|Hx]; [left|right; eauto].
  Qed.
  Lemma delete_perm {A} (l : list A) i x : l !! i = Some x → l ≡ₚ x :: delete i l.
  Proof. intros E. by apply delete_Permutation. Qed.

  (** the state of the group, spelt out *)
  Definition view (ms : list group) (t : tree) (e : N) (sec : epoch_secrets P) (h : hash P) : Prop :=
    TInv t ∧ Forall (agrees t e sec h) ms ∧ Forall (λ g, HInv t (g_leaf P g) (g_own P g)) ms ∧
    (∀ i, live t i ↔ i ∈ g_leaf P <$> ms) ∧ NoDup (g_leaf P <$> ms).
  Lemma view_WInv ms t e sec h : view ms t e sec h → WInv ms.
  Proof. intros (H1 & H2 & H3 & H4 & H5). split; [by exists t, e, sec, h|done]. Qed.
  Lemma WInv_view ms : WInv ms → ∃ t e sec h, view ms t e sec h.
  Proof. intros [(t & e & sec & h & H1 & H2 & H3 & H4) H5]. by exists t, e, sec, h. Qed.

  Lemma view_at ms t e sec h who g : view ms t e sec h → ms !! who = Some g →
      agrees t e sec h g ∧ HInv t (g_leaf P g) (g_own P g) ∧ live t (g_leaf P g) ∧
      Forall (agrees t e sec h) (delete who ms) ∧ Forall (λ k, HInv t (g_leaf P k) (g_own P k)) (delete who ms) ∧
      g_leaf P g ∉ g_leaf P <$> delete who ms ∧ NoDup (g_leaf P <$> delete who ms) ∧
      ∀ i, live t i ↔ i = g_leaf P g ∨ i ∈ g_leaf P <$> delete who ms.
  Proof.
    intros (HT & Ha & Hm & Hl & Hnd) Hg. pose proof (delete_perm ms who g Hg) as Hp.
    rewrite Hp in Ha, Hm. apply Forall_cons in Ha as [Ha1 Ha2]. apply Forall_cons in Hm as [Hm1 Hm2].
    assert (Hnd' := Hnd). rewrite Hp, fmap_cons in Hnd'. apply NoDup_cons in Hnd' as [N1 N2].
    assert (Hl' : ∀ i, live t i ↔ i = g_leaf P g ∨ i ∈ g_leaf P <$> delete who ms).
    { intros i. rewrite Hl, <- elem_of_cons, <- fmap_cons. apply elem_of_Permutation_proper. by apply fmap_Permutation. }
    split_and!; try done. apply Hl'. by left.
  Qed.

  (** ** the three kinds of commit *)
  Lemma step_update ms t e sec h who fresh rs g : view ms t e sec h → ms !! who = Some g →
    ∃ t' dp cp nodes root own g' ks',
      committed t t e sec h g (delete who ms) [] fresh rs t' dp cp nodes root own g' ks' ∧
      commit_update P g fresh rs = (g', Ok (mk_commit [] (mk_update_path (g_leaf P g) (pk_of P fresh) nodes))) ∧
      step P ms (OpUpdate P who fresh rs) = Some (g' :: ks').
  Proof using L.
    intros HV Eg. destruct (view_at _ _ _ _ _ _ _ HV Eg) as ((A1 & A2 & A3 & A4) & HH & Hgl & Hks & Hkh & Hgn & Hkn & Hlv).
    destruct (commit_ok t t e sec h g (delete who ms) [] fresh rs) as (t' & dp & cp & nodes & root & own & g' & ks' & C); try done.
    { apply HV. }
    exists t', dp, cp, nodes, root, own, g', ks'. split; [done|].
    pose proof (cd_gen _ _ _ _ _ _ _ _ _ _ _ _ _ _ _ _ _ _ C) as E1.
    pose proof (cd_deliver _ _ _ _ _ _ _ _ _ _ _ _ _ _ _ _ _ _ C) as E2.
    pose proof (cd_g' _ _ _ _ _ _ _ _ _ _ _ _ _ _ _ _ _ _ C) as E3.
    assert (E : commit_update P g fresh rs = (g', Ok (mk_commit [] (mk_update_path (g_leaf P g) (pk_of P fresh) nodes)))).
    { unfold commit_update. rewrite A1, E1. by rewrite E3. }
    split; [done|]. cbn [step]. by rewrite Eg, E, E2.
  Qed.

  Lemma step_add ms t e sec h who fresh rs cid joiner wr g : view ms t e sec h → ms !! who = Some g →
    let kp := key_package P cid joiner in
    ∃ j t1 t' dp cp nodes root own g' ks' gj w lca lsec,
      vacant t j ∧ added t t1 j kp ∧ TInv t1 ∧ (∀ m, live t1 m ↔ live t m ∨ m = j) ∧ j ≠ g_leaf P g ∧ ¬ live t j ∧
      committed t t1 e sec h g (delete who ms) [PAdd kp j] fresh rs t' dp cp nodes root own g' ks' ∧
      add_member P g kp fresh rs wr = (g', Ok (mk_commit [PAdd kp j] (mk_update_path (g_leaf P g) (pk_of P fresh) nodes), w)) ∧
      seal P wr (pk_of P joiner) [lsec; es_init P sec] = Some (w_sealed P w) ∧
      (∃ d, dp !! d = Some lca ∧ below lca j ∧ chain P fresh (length dp) !! d = Some lsec) ∧
      (∃ h', Forall (agrees t' (e + 1) (derive_epoch P root (es_init P sec) h') h') (g' :: gj :: ks')) ∧
      g_leaf P gj = j ∧ HInv t' j (g_own P gj) ∧
      (∀ x s, g_own P gj !! x = Some s → s = joiner ∨
         ∃ d, dp !! d = Some x ∧ below x j ∧ chain P fresh (length dp) !! d = Some s) ∧
      step P ms (OpAdd P who fresh rs cid joiner wr) = Some (g' :: gj :: ks').
  Proof using L.
    intros HV Eg. destruct (view_at _ _ _ _ _ _ _ HV Eg) as ((A1 & A2 & A3 & A4) & HH & Hgl & Hks & Hkh & Hgn & Hkn & Hlv).
    destruct HV as (HT & _). intros kp. set (j := free_slot P t).
    pose proof (free_slot_vacant t HT) as Hv. fold j in Hv.
    destruct (add_leaf_at_ok t j kp HT Hv) as (t1 & Ea & Had).
    pose proof (ad_TInv t t1 j kp HT Hv Had joiner eq_refl) as HT1.
    assert (Hl1 : ∀ m, live t1 m ↔ live t m ∨ m = j) by (intros m; by eapply ad_live).
    pose proof (vacant_not_live t j HT Hv) as Hjn.
    assert (Hjg : j ≠ g_leaf P g) by (intros ->; done).
    destruct (commit_ok t t1 e sec h g (delete who ms) [PAdd kp j] fresh rs HT1)
      as (t' & dp & cp & nodes & root & own & g' & ks' & C); try done.
    { apply Hl1. by left. }
    { cbn [apply_proposals apply_proposal]. by rewrite Ea. }
    { eapply Forall_impl; [exact Hkh|]. intros k Hk. exact (ad_HInv t t1 j kp HT Hv Had _ _ Hk). }
    assert (Hleaf : ∃ l, get t1 (leaf_to_node j) = Some (Leaf l) ∧ l_pub l = pk_of P joiner).
    { eexists. split; [apply (ad_leaf _ _ _ _ Had)|done]. }
    assert (Hum : ∀ x pk um, get t1 x = Some (Parent pk um) → below x j → j ∈ um).
    { intros x pk um Ex Hb. destruct (ad_parent t t1 j kp HT Hv Had _ _ _ Ex) as (um0 & _ & Hx & _). by apply Hx. }
    pose proof (cd_dp _ _ _ _ _ _ _ _ _ _ _ _ _ _ _ _ _ _ C) as Edp.
    pose proof (cd_gen _ _ _ _ _ _ _ _ _ _ _ _ _ _ _ _ _ _ C) as E1.
    pose proof (cd_deliver _ _ _ _ _ _ _ _ _ _ _ _ _ _ _ _ _ _ C) as D1.
    pose proof (cd_g' _ _ _ _ _ _ _ _ _ _ _ _ _ _ _ _ _ _ C) as E3.
    pose proof (cd_root _ _ _ _ _ _ _ _ _ _ _ _ _ _ _ _ _ _ C) as Hroot.
    pose proof (cd_rekeyed _ _ _ _ _ _ _ _ _ _ _ _ _ _ _ _ _ _ C) as R.
    destruct (join_ok P L t1 t' (g_leaf P g) fresh dp cp j joiner own)
      as (jpath & lca & lsec & J1 & J2 & J3 & pos & ownj & J4 & J5 & J6 & J7 & J8); try done.
    { apply Hl1. by left. } { apply Hl1. by right. } { apply C. } { apply C. }
    pose proof (rk_num P t1 t' _ _ _ R) as Hnum.
    destruct (law_open P L joiner wr [lsec; es_init P sec]) as (ct & S1 & S2).
    set (c := mk_commit [PAdd kp j] (mk_update_path (g_leaf P g) (pk_of P fresh) nodes)) in *.
    set (w := mk_welcome P t' (g_epoch P g') (g_transcript P g') j lca ct).
    assert (EA : add_member P g kp fresh rs wr = (g', Ok (c, w))).
    { unfold add_member, add_leaf. rewrite A1. fold j. rewrite Ea, E1. rewrite Hnum, Edp, J1, J2, J3, A3.
      replace (l_pub kp) with (pk_of P joiner) by done. rewrite S1. unfold w. rewrite E3. done. }
    rewrite <- Hroot in J5.
    set (gj := mk_group P t' j ownj (g_epoch P g') (derive_epoch P root (es_init P sec) (g_transcript P g')) (g_transcript P g') 0).
    assert (EJ : join_from_welcome P w joiner = Ok gj).
    { unfold join_from_welcome. cbn [w w_sealed w_joiner w_tree w_lca w_epoch w_transcript].
      rewrite S2, Hnum, J1, J4, J5. done. }
    exists j, t1, t', dp, cp, nodes, root, own, g', ks', gj, w, lca, lsec.
    split_and!; try done.
    - destruct (cd_view _ _ _ _ _ _ _ _ _ _ _ _ _ _ _ _ _ _ C) as (h' & Eh & Fv). exists h'.
      apply Forall_cons in Fv as [F1 F2]. constructor; [done|]. constructor; [|done].
      destruct F1 as (F11 & F12 & F13 & F14). unfold agrees, gj. cbn [g_tree g_epoch g_secrets g_transcript].
      rewrite F12, F14. done.
    - cbn [step]. fold kp. rewrite Eg, EA, EJ, D1. done.
  Qed.

  Lemma step_remove ms t e sec h who fresh rs target g : view ms t e sec h → ms !! who = Some g →
    target ≠ g_leaf P g → target < num_leaves t →
    let ks := filter (λ m, g_leaf P m ≠ target) (delete who ms) in
    ∃ t1 t' dp cp nodes root own g' ks',
      removed t t1 target ∧ TInv t1 ∧ (∀ m, live t1 m ↔ live t m ∧ m ≠ target) ∧
      committed t t1 e sec h g ks [PRemove target] fresh rs t' dp cp nodes root own g' ks' ∧
      remove_member P g target fresh rs =
        (g', Ok (mk_commit [PRemove target] (mk_update_path (g_leaf P g) (pk_of P fresh) nodes))) ∧
      step P ms (OpRemove P who fresh rs target) = Some (g' :: ks').
  Proof using L.
    intros HV Eg Hne Hlt ks. destruct (view_at _ _ _ _ _ _ _ HV Eg) as ((A1 & A2 & A3 & A4) & HH & Hgl & Hks & Hkh & Hgn & Hkn & Hlv).
    destruct HV as (HT & _).
    destruct (remove_leaf_ok t target HT Hlt) as (t1 & Er & Hr).
    pose proof (rm_TInv t t1 target HT Hr) as HT1.
    assert (Hl1 : ∀ m, live t1 m ↔ live t m ∧ m ≠ target) by (intros m; by eapply rm_live).
    assert (Hksub : ∀ k, k ∈ ks ↔ k ∈ delete who ms ∧ g_leaf P k ≠ target).
    { intros k. unfold ks. rewrite elem_of_list_filter. tauto. }
    destruct (commit_ok t t1 e sec h g ks [PRemove target] fresh rs HT1)
      as (t' & dp & cp & nodes & root & own & g' & ks' & C); try done.
    { apply Hl1. split; [done|]. intros E. by apply Hne. }
    { cbn [apply_proposals apply_proposal]. by rewrite Er. }
    { apply Forall_forall. intros k Hk. apply Hksub in Hk as [Hk _]. rewrite Forall_forall in Hks. by apply Hks. }
    { apply Forall_forall. intros k Hk. apply Hksub in Hk as [Hk Hk']. rewrite Forall_forall in Hkh.
      exact (rm_HInv t t1 target Hr _ _ Hk' (Hkh k Hk)). }
    { intros (k & E & Hk)%elem_of_list_fmap. apply Hgn. rewrite E. apply elem_of_list_fmap_1. by apply Hksub in Hk as [Hk _]. }
    pose proof (cd_gen _ _ _ _ _ _ _ _ _ _ _ _ _ _ _ _ _ _ C) as E1.
    pose proof (cd_deliver _ _ _ _ _ _ _ _ _ _ _ _ _ _ _ _ _ _ C) as E2.
    pose proof (cd_g' _ _ _ _ _ _ _ _ _ _ _ _ _ _ _ _ _ _ C) as E3.
    assert (E : remove_member P g target fresh rs =
      (g', Ok (mk_commit [PRemove target] (mk_update_path (g_leaf P g) (pk_of P fresh) nodes)))).
    { unfold remove_member. rewrite A1, Er, E1. by rewrite E3. }
    exists t1, t', dp, cp, nodes, root, own, g', ks'. split_and!; try done.
    cbn [step]. rewrite Eg, A1. rewrite bool_decide_false by done.
    replace (num_leaves t <=? target) with false by (symmetry; by apply N.leb_gt). cbn [orb].
    fold ks. by rewrite E, E2.
  Qed.

  Lemma step_remove_skip ms t e sec h who fresh rs target g : view ms t e sec h → ms !! who = Some g →
    target = g_leaf P g ∨ num_leaves t <= target →
    step P ms (OpRemove P who fresh rs target) = Some ms.
  Proof.
    intros HV Eg Hc. destruct (view_at _ _ _ _ _ _ _ HV Eg) as ((A1 & _) & _).
    cbn [step]. rewrite Eg, A1. destruct Hc as [->|Hc]; [by rewrite bool_decide_true by done|].
    apply N.leb_le in Hc. rewrite Hc. by rewrite orb_true_r.
  Qed.

  Lemma committed_view t t1 e sec h g ks pr fresh rs t' dp cp nodes root own g' ks' :
    committed t t1 e sec h g ks pr fresh rs t' dp cp nodes root own g' ks' →
    NoDup (g_leaf P <$> (g :: ks)) → (∀ i, live t1 i ↔ i ∈ g_leaf P <$> (g :: ks)) →
    ∃ h', view (g' :: ks') t' (e + 1) (derive_epoch P root (es_init P sec) h') h'.
  Proof.
    intros C Hnd Hlv. destruct (cd_view _ _ _ _ _ _ _ _ _ _ _ _ _ _ _ _ _ _ C) as (h' & _ & Fv). exists h'.
    pose proof (cd_leaves _ _ _ _ _ _ _ _ _ _ _ _ _ _ _ _ _ _ C) as El.
    split; [apply C|]. split; [done|]. split; [apply C|]. rewrite El. split; [|done].
    intros i. rewrite (cd_live _ _ _ _ _ _ _ _ _ _ _ _ _ _ _ _ _ _ C). apply Hlv.
  Qed.

  Lemma fmap_filter_leaf (l : list group) target :
    g_leaf P <$> filter (λ m, g_leaf P m ≠ target) l = filter (λ i, i ≠ target) (g_leaf P <$> l).
  Proof.
    induction l as [|a l IH]; [done|]. rewrite fmap_cons, !filter_cons.
    destruct (decide (g_leaf P a ≠ target)) as [Hd|Hd]; [|done]. rewrite fmap_cons. by f_equal.
  Qed.

  Lemma step_ok ms o : WInv ms → ∃ ms', step P ms o = Some ms' ∧ WInv ms' ∧ slots_after P ms ms' o.
  Proof using L.
    intros HW. destruct (WInv_view ms HW) as (t & e & sec & h & HV).
    destruct o as [who fresh rs|who fresh rs cid joiner wr|who fresh rs target].
    all: destruct (ms !! who) as [g|] eqn:Eg.
    all: try (exists ms; cbn [step slots_after]; rewrite Eg; try rewrite decide_False by (by intros [? [=]]);
              split_and!; done).
    all: destruct (view_at _ _ _ _ _ _ _ HV Eg) as ((A1 & A2 & A3 & A4) & HH & Hgl & Hks & Hkh & Hgn & Hkn & Hlv).
    all: pose proof (fmap_Permutation (g_leaf P) _ _ (delete_perm ms who g Eg)) as Hperm.
    - (* update *)
      destruct (step_update ms t e sec h who fresh rs g HV Eg) as (t' & dp & cp & nodes & root & own & g' & ks' & C & _ & E).
      exists (g' :: ks'). split; [done|]. split.
      + destruct (committed_view _ _ _ _ _ _ _ _ _ _ _ _ _ _ _ _ _ _ C) as (h' & HV').
        * rewrite fmap_cons. by constructor.
        * intros i. rewrite fmap_cons, elem_of_cons. apply Hlv.
        * by eapply view_WInv.
      + cbn [slots_after]. rewrite (cd_leaves _ _ _ _ _ _ _ _ _ _ _ _ _ _ _ _ _ _ C). by symmetry.
    - (* add *)
      destruct (step_add ms t e sec h who fresh rs cid joiner wr g HV Eg)
        as (j & t1 & t' & dp & cp & nodes & root & own & g' & ks' & gj & w & lca & lsec & Hv & Had & HT1 & Hl1 & Hjg & Hjn & C
            & _ & _ & _ & (h' & Fv) & Ej & HHj & _ & E).
      pose proof (cd_leaves _ _ _ _ _ _ _ _ _ _ _ _ _ _ _ _ _ _ C) as El. rewrite !fmap_cons in El. injection El as El1 El2.
      exists (g' :: gj :: ks'). split; [done|]. split.
      + split.
        * exists t', (e + 1), (derive_epoch P root (es_init P sec) h'), h'. split; [apply C|]. split; [done|]. split.
          -- pose proof (cd_HInv _ _ _ _ _ _ _ _ _ _ _ _ _ _ _ _ _ _ C) as FH. apply Forall_cons in FH as [FH1 FH2].
             constructor; [done|]. constructor; [by rewrite Ej|done].
          -- intros i. rewrite !fmap_cons, !elem_of_cons, El1, El2, Ej.
             rewrite (cd_live _ _ _ _ _ _ _ _ _ _ _ _ _ _ _ _ _ _ C), Hl1, Hlv. tauto.
        * rewrite !fmap_cons, El1, El2, Ej. constructor; [|constructor; [|done]].
          -- rewrite elem_of_cons. intros [?|?]; [by apply Hjg|done].
          -- intros Hj. apply Hjn. apply Hlv. by right.
      + cbn [slots_after]. rewrite decide_True by eauto. exists j. split.
        * rewrite !fmap_cons, El1, El2, Ej, Hperm, fmap_cons. apply Permutation_swap.
        * intros k Hk. rewrite Forall_forall in Fv. destruct (Fv k Hk) as (-> & _).
          pose proof (cd_rekeyed _ _ _ _ _ _ _ _ _ _ _ _ _ _ _ _ _ _ C) as R.
          rewrite (rk_rest _ _ _ _ _ _ R).
          -- eexists. split; [apply (ad_leaf _ _ _ _ Had)|done].
          -- eapply dp_not_leaf; [|exact (cd_climbs _ _ _ _ _ _ _ _ _ _ _ _ _ _ _ _ _ _ C)].
             apply (live_lt P t1); [done|]. apply Hl1. by left.
          -- unfold leaf_to_node. lia.
    - (* remove *)
      destruct (decide (target = g_leaf P g ∨ num_leaves t <= target)) as [Hc|Hc].
      + exists ms. split; [by eapply step_remove_skip|]. split; [done|]. cbn [slots_after]. rewrite Eg.
        assert (Ef : filter (λ i, i ≠ target ∨ i = g_leaf P g) (g_leaf P <$> ms) = g_leaf P <$> ms); [|by rewrite Ef].
        destruct HV as (HT & _ & _ & Hall & _). assert (Hin : ∀ i, i ∈ g_leaf P <$> ms → i ≠ target ∨ i = g_leaf P g).
        { intros i Hi. destruct (decide (i = target)) as [->|]; [right|by left]. destruct Hc as [->|Hc]; [done|].
          apply Hall in Hi. apply (live_lt P t _ HT) in Hi. lia. }
        clear -Hin. induction (g_leaf P <$> ms) as [|a l IH]; [done|]. rewrite filter_cons, decide_True by (apply Hin; by left).
        f_equal. apply IH. intros i Hi. apply Hin. by right.
      + apply Decidable.not_or in Hc as [Hc1 Hc2]. apply N.nle_gt in Hc2.
        destruct (step_remove ms t e sec h who fresh rs target g HV Eg Hc1 Hc2)
          as (t1 & t' & dp & cp & nodes & root & own & g' & ks' & Hr & HT1 & Hl1 & C & _ & E).
        exists (g' :: ks'). split; [done|].
        assert (Hkl : g_leaf P <$> filter (λ m, g_leaf P m ≠ target) (delete who ms) =
                      filter (λ i, i ≠ target) (g_leaf P <$> delete who ms)) by apply fmap_filter_leaf.
        split.
        * destruct (committed_view _ _ _ _ _ _ _ _ _ _ _ _ _ _ _ _ _ _ C) as (h' & HV').
          -- rewrite fmap_cons, Hkl. constructor; [|by apply NoDup_filter]. intros Hin. apply elem_of_list_filter in Hin as [_ Hin]. done.
          -- intros i. rewrite fmap_cons, elem_of_cons, Hkl, elem_of_list_filter, Hl1, Hlv. split.
             ++ intros [[->|?] ?]; tauto.
             ++ intros [->|[? ?]]; [|tauto]. split; [by left|]. intros E'. by apply Hc1.
          -- by eapply view_WInv.
        * cbn [slots_after]. rewrite Eg. rewrite (cd_leaves _ _ _ _ _ _ _ _ _ _ _ _ _ _ _ _ _ _ C).
          rewrite Hperm. rewrite !fmap_cons, Hkl, filter_cons, decide_True by (by right). f_equiv.
          clear -Hgn. induction (g_leaf P <$> delete who ms) as [|a l IH]; [done|].
          apply not_elem_of_cons in Hgn as [N1 N2]. rewrite !filter_cons.
          destruct (decide (a ≠ target)) as [Hd|Hd].
          -- rewrite decide_True by (by left). f_equiv. by apply IH.
          -- rewrite decide_False by (intros [?|?]; [done|by subst]). by apply IH.
  Qed.

  Lemma founded_ok cid s : WInv (founded P cid s).
  Proof.
    unfold founded, create, bootstrap. cbn [from_leaves key_package l_cid l_pub]. split.
    - eexists _, _, _, _. split.
      2:{ split; [constructor; [split_and!; reflexivity|constructor]|]. cbn [g_tree g_leaf g_own fmap list_fmap].
          split.
          - constructor; [|constructor]. cbn [g_leaf g_own]. split.
            + eexists _, s. split; [reflexivity|]. split; [apply lookup_singleton|done].
            + intros x s' E. apply lookup_singleton_Some in E as [<- _]. apply below_leaf_refl.
            + intros x pk um E. unfold Tree_Model.get in E. destruct (N.to_nat x) as [|q]; cbn in E; [done|done].
          - intros i. split.
            + intros [l E]. unfold Tree_Model.get, leaf_to_node in E. destruct (N.to_nat (i * 2)) as [|q] eqn:Eq; cbn in E; [|done].
              assert (i = 0) as -> by lia. by apply elem_of_list_singleton.
            + intros ->%elem_of_list_singleton. by eexists. }
      split.
      + cbn. split; [lia|done].
      + intros i nd E pk um ->. unfold Tree_Model.get in E. destruct (N.to_nat _); cbn in E; [done|done].
      + intros x nd E Hx l ->. unfold Tree_Model.get in E. destruct (N.to_nat x) eqn:Ex; cbn in E; [|done].
        assert (x = 0) as -> by lia. cbn in Hx. lia.
      + intros x nd pk E Hpk. unfold Tree_Model.get in E. destruct (N.to_nat x) eqn:Ex; cbn in E; [|done].
        injection E as <-. injection Hpk as <-. eauto.
      + intros x pk um E. unfold Tree_Model.get in E. destruct (N.to_nat x) eqn:Ex; cbn in E; [done|done].
    - cbn. apply NoDup_singleton.
  Qed.

  Lemma run_ok os : ∀ ms, WInv ms → ∃ ms', run P ms os = Some ms' ∧ WInv ms'.
  Proof using L.
    induction os as [|o os IH]; intros ms HW; cbn [run]; [by exists ms|].
    destruct (step_ok ms o HW) as (ms1 & -> & HW1 & _). by apply IH.
  Qed.
End Proofs.
