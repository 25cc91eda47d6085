(** Proofs about applying an update path, and about joining. *)
From Coq Require Import ZifyBool ZifyNat ZifyN.
From stdpp Require Import prelude gmap.
From Verif Require Import Tree_Model Tree_Spec TreeMath_Proofs TreePath_Proofs Tree_Proofs TreeUpd_Proofs.
Local Open Scope N_scope.

(** ** More about paths *)
Lemma anc_congr k k' i i' : k <= k' → anc k i = anc k i' → anc k' i = anc k' i'.
Proof.
  intros Hk E. apply (below_level (anc k' i) (anc k' i') i'); [|apply below_anc|by rewrite !level_anc].
  eapply below_trans; [exact Hk|]. rewrite E. apply below_anc.
Qed.

Lemma climbs_drop n i k dp cp d x : climbs n i k dp cp → dp !! d = Some x →
  x = anc (level x) i ∧ climbs n i (level x) (drop (S d) dp) (drop (S d) cp).
Proof.
  intros Hc. revert d. induction Hc as [|k k' y dp cp H1 H2 H3 H4 H5 H6 H7 H8 H9 IH]; intros d Hd; [done|].
  destruct d as [|d]; cbn [lookup list_lookup] in Hd.
  - injection Hd as <-. rewrite level_anc. done.
  - apply IH in Hd. done.
Qed.

Lemma climbs_func n i i' k dp cp dp' cp' : climbs n i k dp cp → climbs n i' k dp' cp' →
  anc k i = anc k i' → dp = dp'.
Proof.
  intros Hc. revert dp' cp'. induction Hc as [|k k' y dp cp H1 H2 H3 H4 H5 H6 H7 H8 H9 IH]; intros dp' cp' Hc' E.
  - inversion Hc' as [|? ? ? ? ? G1 G2]; subst; [done|lia].
  - inversion Hc' as [|? k2 y2 dp2 cp2 G1 G2 G3 G4 G5 G6 G7 G8 G9]; subst; [lia|].
    assert (k' = k2) as <-.
    { destruct (N.lt_trichotomy k' k2) as [Hl|[Hl|Hl]]; [exfalso|done|exfalso].
      - pose proof (G4 k' H1 Hl) as Hw. rewrite <- (anc_congr k k' i i') in Hw by (done || lia). lia.
      - pose proof (H4 k2 G1 Hl) as Hw. rewrite (anc_congr k k2 i i') in Hw by (done || lia). lia. }
    rewrite (anc_congr k k' i i') by (done || lia). f_equal. eapply IH; [done|]. apply (anc_congr k k'); [lia|done].
Qed.

Lemma last_drop {A} (l : list A) d p : l !! d = Some p → last l = Some (default p (last (drop (S d) l))).
Proof.
  revert d. induction l as [|a l IH]; intros d; [done|]. destruct d as [|d]; cbn [lookup list_lookup drop].
  - intros [= <-]. rewrite (last_cons a). rewrite drop_0. by destruct (last l).
  - intros E. rewrite (last_cons a). rewrite (IH d E). done.
Qed.

Section Proofs.
  Context (P : prims) (L : laws P).
  Notation node := (node (pub P)).
  Notation tree := (list node).
  Notation get := (get P).
  Notation set_node := (set_node P).
  Notation num_leaves := (num_leaves P).
  Notation resolution := (resolution P).
  Notation live := (live P).
  Notation TInv := (TInv P).
  Notation HInv := (HInv P).
  Notation rekeyed := (rekeyed P).

  Section Rekeyed.
    Context (t t' : tree) (i : N) (s : secret P) (dp cp : list N).
    Context (HT : TInv t) (Hi : live t i) (Hc : climbs (num_leaves t) i 0 dp cp) (R : rekeyed t t' i s dp).

    Lemma rk_num : num_leaves t' = num_leaves t.
    Proof using R. unfold Tree_Model.num_leaves. by rewrite (rk_len _ _ _ _ _ _ R). Qed.
    Lemma rk_get_leaf m : m ≠ i → get t' (leaf_to_node m) = get t (leaf_to_node m).
    Proof using HT Hi Hc R.
      intros Hm. apply (rk_rest _ _ _ _ _ _ R).
      - eapply dp_not_leaf; [|exact Hc]. by apply (live_lt P).
      - unfold leaf_to_node. lia.
    Qed.
    Lemma rk_live m : live t' m ↔ live t m.
    Proof using HT Hi Hc R.
      destruct (decide (m = i)) as [->|Hm].
      - split; [done|]. intros _. destruct (rk_leaf _ _ _ _ _ _ R) as (l & _ & E). by eexists.
      - unfold Tree_Spec.live. by rewrite rk_get_leaf.
    Qed.
    Lemma dp_iff x : x ∈ dp ↔ below x i ∧ x < node_width (num_leaves t) ∧ 0 < level x.
    Proof using HT Hi Hc. apply (climbs_elem _ _ _ _ cp); [by apply (live_lt P)|done]. Qed.
    Lemma rk_cases x : (∃ j ps, dp !! j = Some x ∧ chain P s (length dp) !! j = Some ps ∧
                                 get t' x = Some (Parent (pk_of P ps) [])) ∨
                       (x = leaf_to_node i) ∨ (x ∉ dp ∧ x ≠ leaf_to_node i ∧ get t' x = get t x).
    Proof using R.
      destruct (decide (x ∈ dp)) as [Hx|Hx].
      - left. apply elem_of_list_lookup in Hx as [j Hj]. destruct (rk_path _ _ _ _ _ _ R j x Hj) as (ps & ? & ?). eauto.
      - right. destruct (decide (x = leaf_to_node i)) as [->|Hn]; [by left|right].
        split_and!; [done|done|]. by apply (rk_rest _ _ _ _ _ _ R).
    Qed.

    Lemma rk_TInv : TInv t'.
    Proof using HT Hi Hc R.
      split.
      - rewrite rk_num, (rk_len _ _ _ _ _ _ R). apply HT.
      - intros m nd E pk um ->. destruct (decide (m = i)) as [->|Hm].
        + destruct (rk_leaf _ _ _ _ _ _ R) as (l & _ & E'). congruence.
        + rewrite rk_get_leaf in E by done. by eapply (ti_even _ _ HT).
      - intros x nd E Hl l ->. destruct (rk_cases x) as [(j & ps & _ & _ & E')|[->|(_ & _ & E')]].
        + congruence.
        + rewrite level_leaf in Hl. lia.
        + rewrite E' in E. by eapply (ti_odd _ _ HT).
      - intros x nd pk E Hpk. destruct (rk_cases x) as [(j & ps & _ & _ & E')|[->|(_ & _ & E')]].
        + rewrite E' in E. injection E as <-. injection Hpk as <-. eauto.
        + destruct (rk_leaf _ _ _ _ _ _ R) as (l & _ & E'). rewrite E' in E. injection E as <-. injection Hpk as <-. eauto.
        + rewrite E' in E. by eapply (ti_key _ _ HT).
      - intros x pk um E. destruct (rk_cases x) as [(j & ps & _ & _ & E')|[->|(_ & _ & E')]].
        + rewrite E' in E. injection E as <- <-. split; [constructor|]. by intros m ?%elem_of_nil.
        + destruct (rk_leaf _ _ _ _ _ _ R) as (l & _ & E'). congruence.
        + rewrite E' in E. destruct (ti_um _ _ HT _ _ _ E) as [H1 H2]. split; [done|]. intros m Hm.
          rewrite rk_live. by apply H2.
    Qed.

    (** the committer *)
    Lemma rk_HInv (own : gmap N (secret P)) : own !! leaf_to_node i = Some s →
      (∀ j x, dp !! j = Some x → own !! x = chain P s (length dp) !! j) →
      (∀ z, z ∉ dp → z ≠ leaf_to_node i → own !! z = None) → HInv t' i own.
    Proof using HT Hi Hc R.
      intros H1 H2 H3. split.
      - destruct (rk_leaf _ _ _ _ _ _ R) as (l & _ & E). eexists _, s. done.
      - intros x s' E. destruct (decide (x ∈ dp)) as [Hx|Hx]; [by destruct (proj1 (dp_iff x) Hx)|].
        destruct (decide (x = leaf_to_node i)) as [->|Hn]; [apply below_leaf_refl|]. rewrite H3 in E by done. done.
      - intros x pk um E Hb. destruct (rk_cases x) as [(j & ps & Hj & Hps & E')|[->|(Hx & Hn & E')]].
        + rewrite E' in E. injection E as <- <-. rewrite decide_False by apply not_elem_of_nil. exists ps.
          rewrite (H2 j x Hj). done.
        + destruct (rk_leaf _ _ _ _ _ _ R) as (l & _ & E'). congruence.
        + exfalso. apply Hx. apply dp_iff. rewrite E' in E. split_and!; [done|apply (TInv_lt P); [done|]; exact (get_lt P _ _ _ E)|].
          destruct (leaf_or_nd x) as [(m & -> & _)|Hl]; [|done]. exfalso. by eapply (ti_even _ _ HT).
    Qed.

    (** somebody else who knows the path secrets above *)
    Lemma rk_HInv_other m d (own own' : gmap N (secret P)) : m ≠ i →
      (∀ d' x', dp !! d' = Some x' → below x' m ↔ (d <= d')%nat) →
      (∃ l s', get t (leaf_to_node m) = Some (Leaf l) ∧ own !! leaf_to_node m = Some s' ∧ l_pub l = pk_of P s') →
      (∀ x s', own !! x = Some s' → below x m) →
      (∀ x pk um, x ∉ dp → get t x = Some (Parent pk um) → below x m →
         if decide (m ∈ um) then own !! x = None else ∃ s', own !! x = Some s' ∧ pk = pk_of P s') →
      (∀ d' x', dp !! d' = Some x' → (d <= d')%nat → own' !! x' = chain P s (length dp) !! d') →
      (∀ z, z ∉ drop d dp → own' !! z = own !! z) →
      HInv t' m own'.
    Proof using HT Hi Hc R.
      intros Hm Hd Hleaf Hdom Hkey H1 H2.
      assert (Hnl : leaf_to_node m ∉ dp).
      { eapply dp_not_leaf; [|exact Hc]. by apply (live_lt P). }
      assert (Hin : ∀ z, z ∈ drop d dp → ∃ d', dp !! d' = Some z ∧ (d <= d')%nat).
      { intros z Hz. apply elem_of_list_lookup in Hz as [q Hq]. rewrite lookup_drop in Hq. exists (d + q)%nat. split; [done|lia]. }
      assert (Hdr : ∀ z, z ∈ drop d dp → z ∈ dp).
      { intros z Hz. apply Hin in Hz as (d' & Hz & _). by eapply elem_of_list_lookup_2. }
      split.
      - destruct Hleaf as (l & s' & E1 & E2 & E3). exists l, s'. rewrite rk_get_leaf by done. split_and!; [done| |done].
        rewrite H2; [done|]. intros Hz. by apply Hnl, Hdr.
      - intros x s' E. destruct (decide (x ∈ drop d dp)) as [Hx|Hx].
        + apply Hin in Hx as (d' & Hx & Hle). by apply (Hd d' x Hx).
        + rewrite H2 in E by done. eauto.
      - intros x pk um E Hb. destruct (rk_cases x) as [(j & ps & Hj & Hps & E')|[->|(Hx & Hn & E')]].
        + rewrite E' in E. injection E as <- <-. rewrite decide_False by apply not_elem_of_nil. exists ps.
          rewrite (H1 j x Hj); [done|]. by apply (Hd j x Hj).
        + apply below_leaf_eq in Hb. done.
        + rewrite E' in E. pose proof (Hkey x pk um Hx E Hb) as K. rewrite H2; [done|]. intros Hz. by apply Hx, Hdr.
    Qed.
  End Rekeyed.

  (** ** Opening *)
  Lemma find_held_none (own : gmap N (secret P)) rec ri : (∀ r, r ∈ rec → own !! r = None) → find_held P own ri rec = None.
  Proof.
    revert ri. induction rec as [|r rec IH]; intros ri E; cbn [find_held]; [done|].
    rewrite (E r) by (by left). apply IH. intros; apply E; by right.
  Qed.
  Lemma find_held_some (own : gmap N (secret P)) rec ri r : r ∈ rec → is_Some (own !! r) →
    ∃ k r' s', find_held P own ri rec = Some ((ri + k)%nat, s') ∧ rec !! k = Some r' ∧ own !! r' = Some s'.
  Proof.
    revert ri. induction rec as [|a rec IH]; intros ri Hr Hs; [by apply elem_of_nil in Hr|].
    cbn [find_held]. destruct (own !! a) as [s'|] eqn:Ea.
    { exists O, a, s'. rewrite Nat.add_0_r. done. }
    apply elem_of_cons in Hr as [->|Hr]; [rewrite Ea in Hs; by destruct Hs|].
    destruct (IH (S ri) Hr Hs) as (k & r' & s' & E1 & E2 & E3).
    exists (S k), r', s'. replace (ri + S k)%nat with (S ri + k)%nat by lia. done.
  Qed.

  Lemma try_open_skip t nodes (own : gmap N (secret P)) dp cp : ∀ d0 k y, cp !! k = Some y →
    (∀ k' y', (k' < k)%nat → cp !! k' = Some y' → ∃ rec, resolution t y' = Some rec ∧ ∀ r, r ∈ rec → own !! r = None) →
    try_open P t nodes own dp d0 cp = try_open P t nodes own dp (d0 + k) (drop k cp).
  Proof.
    induction cp as [|c cp IH]; intros d0 k y Hy Hs; [done|].
    destruct k as [|k]; [by rewrite Nat.add_0_r|]. cbn [try_open drop].
    destruct (Hs O c) as (rec & E1 & E2); [lia|done|]. rewrite E1, find_held_none by done.
    rewrite (IH (S d0) k y); [by replace (S d0 + k)%nat with (d0 + S k)%nat by lia|done|].
    intros k' y' Hk Hy'. apply (Hs (S k') y'); [lia|done].
  Qed.

  Lemma chain_root s n d ps : chain P s n !! d = Some ps →
    default (derive P s) (last (chain P s n)) = default ps (last (chain P ps (n - S d))).
  Proof.
    intros E. rewrite (last_drop _ d ps E). cbn [from_option id]. by rewrite (chain_drop P s n d ps E).
  Qed.

  (** ** Applying *)
  Lemma apply_ok t t' i s dp cp nodes m own : TInv t → live t i →
    direct_path i (num_leaves t) = Some dp → copath i (num_leaves t) = Some cp →
    climbs (num_leaves t) i 0 dp cp → rekeyed t t' i s dp → length nodes = length dp →
    (∀ j y ps, cp !! j = Some y → chain P s (length dp) !! j = Some ps →
       ∃ pn rec, nodes !! j = Some pn ∧ resolution t y = Some rec ∧ Forall2 (sealed P t ps) rec (pn_cts pn)) →
    (∀ j pn, nodes !! j = Some pn → ∃ ps, chain P s (length dp) !! j = Some ps ∧ pn_pub pn = pk_of P ps) →
    HInv t m own → m ≠ i →
    ∃ learned, apply_update_path P t (mk_update_path i (pk_of P s) nodes) own =
        (t', Ok (default (derive P s) (last (chain P s (length dp))), learned)) ∧
      HInv t' m (learned ∪ own) ∧
      (∀ x s', learned !! x = Some s' → ∃ d, dp !! d = Some x ∧ below x m ∧ chain P s (length dp) !! d = Some s').
  Proof using L.
    intros HT Hi Edp Ecp Hc R Hnl Hcts Hpub HM Hm.
    pose proof (live_lt P t i HT Hi) as Hin.
    assert (Hml : live t m). { destruct (hi_leaf _ _ _ _ HM) as (l & s' & E & _). by exists l. }
    pose proof (live_lt P t m HT Hml) as Hmn.
    pose proof (climbs_length _ _ _ _ _ Hc) as Hlen.
    pose proof (climbs_NoDup _ _ _ _ _ Hc) as Hnd.
    pose proof (dp_not_leaf _ _ _ _ Hin Hc) as Hdl.
    destruct (rk_leaf _ _ _ _ _ _ R) as (l & El & El').
    pose proof (get_lt P _ _ _ El) as Hll.
    unfold apply_update_path. cbn [up_leaf up_leaf_pub up_nodes]. rewrite Edp, Ecp, El.
    replace (length dp =? length nodes)%nat with true by (symmetry; apply Nat.eqb_eq; lia). cbn [negb].
    rewrite set_node_ok by done. cbv zeta.
    set (t1 := <[N.to_nat (leaf_to_node i) := Leaf (mk_leaf (l_cid l) (pk_of P s) (l_index l))]> t).
    destruct (install_spec P t1 dp nodes) as (t2 & F1 & F2 & F3 & F4); [lia|done| |].
    { intros x Hx. unfold t1. rewrite insert_length. apply (climbs_elem _ _ _ _ _ _ Hin Hc) in Hx as (_ & Hx & _).
      by apply TInv_lt. }
    assert (t2 = t') as ->.
    { apply (tree_eq P). intros x. destruct (rk_cases t t' i s dp R x) as [(j & ps & Hj & Hps & E')|[->|(Hx & Hn & E')]].
      - destruct (lookup_lt_is_Some_2 nodes j) as [pn Hpn]. { rewrite Hnl. by eapply lookup_lt_Some. }
        rewrite (F3 j x pn Hj Hpn), E'. destruct (Hpub j pn Hpn) as (ps' & Hps' & ->). congruence.
      - rewrite F4 by (apply Hdl). unfold t1. rewrite get_insert by done. rewrite decide_True by done. by rewrite El'.
      - rewrite F4 by done. unfold t1. rewrite get_insert by done. rewrite decide_False by done. by rewrite E'. }
    rewrite F1.
    (* the place of m *)
    destruct (climbs_cover (num_leaves t) i 0 dp cp m Hin Hmn Hc) as (d & y & x & Hy & Hx & Hym & Hdx & Hdy).
    { rewrite anc_0. intros Hb. by apply below_leaf_eq in Hb. }
    destruct (chain_is_some P s (length dp) d) as [ps Hps]. { by eapply lookup_lt_Some. }
    assert (Hres : ∀ j y', cp !! j = Some y' → resolution t' y' = resolution t y' ∧
              ∀ rec, resolution t y' = Some rec → res_ok P t y' rec).
    { intros j y' Hj. destruct (climbs_sibling_in _ _ _ _ _ _ _ Hc Hj) as (Hw & _). split.
      - symmetry. apply resolution_ext; [by rewrite (rk_len _ _ _ _ _ _ R)|done|]. intros z Hz. symmetry.
        assert (Hnz : ¬ below z i).
        { intros Hb. exact (climbs_sibling_notin _ _ _ _ _ _ _ Hin Hc Hj (Hz i Hb)). }
        apply (rk_rest _ _ _ _ _ _ R).
        + intros Hz'. apply (climbs_elem _ _ _ _ _ _ Hin Hc) in Hz' as (Hz' & _). done.
        + intros ->. apply Hnz, below_leaf_refl.
      - intros rec Er. destruct (resolution_ok P t y' HT Hw) as (rec' & E1 & E2). congruence. }
    assert (Hskip : ∀ k' y', (k' < d)%nat → cp !! k' = Some y' →
              ∃ rec, resolution t' y' = Some rec ∧ ∀ r, r ∈ rec → own !! r = None).
    { intros k' y' Hk Hy'. destruct (Hres k' y' Hy') as [R1 R2].
      destruct (climbs_sibling_in _ _ _ _ _ _ _ Hc Hy') as (Hw & _).
      destruct (resolution_ok P t y' HT Hw) as (rec & E1 & E2). exists rec. split; [by rewrite R1|].
      intros r Hr. destruct (ro_in _ _ _ _ E2 r Hr) as [(nd & pk & G1 & G2) G3].
      pose proof (held_covers P t m own r nd pk HT HM G1 G2) as Hh. destruct (own !! r) as [s'|]; [|done].
      destruct Hh as [Hh _]. apply covers_below in Hh. apply G3 in Hh. pose proof (Hdy k' y' Hy' Hh). lia. }
    rewrite (try_open_skip t' nodes own dp cp 0 d y Hy Hskip). rewrite Nat.add_0_l.
    rewrite (drop_S _ y d Hy). cbn [try_open].
    destruct (Hcts d y ps Hy Hps) as (pn & rec & Hpn & Erec & Fct).
    destruct (Hres d y Hy) as [R1 R2]. rewrite R1, Erec. specialize (R2 rec Erec).
    destruct (ro_cover _ _ _ _ R2 m Hml Hym) as (r & Hr & Hcov).
    assert (Hrs : is_Some (own !! r)).
    { destruct (ro_in _ _ _ _ R2 r Hr) as [(nd & pk & G1 & G2) _].
      pose proof (held_covers P t m own r nd pk HT HM G1 G2) as Hh. destruct (own !! r) as [s'|]; [eauto|done]. }
    destruct (find_held_some own rec 0 r Hr Hrs) as (k & r' & s' & Ef & Ek & Eo). rewrite Ef, Hpn. rewrite Nat.add_0_l.
    cbn [mbind option_bind].
    destruct (Forall2_lookup_l _ _ _ _ _ Fct Ek) as (ct & Hct & (nd & pk & rr & G1 & G2 & G3)). rewrite Hct.
    pose proof (held_covers P t m own r' nd pk HT HM G1 G2) as Hh. rewrite Eo in Hh. destruct Hh as [_ ->].
    rewrite (seal_opens P L rr s' [ps] ct G3), Hx.
    assert (Hnd' : NoDup (drop (S d) dp)).
    { clear -Hnd. rewrite <- (take_drop (S d) dp) in Hnd. by apply NoDup_app in Hnd as (_ & _ & Hnd). }
    destruct (climb_spec P ps (drop (S d) dp) {[x := ps]} Hnd') as (lr & C1 & C2 & C3).
    rewrite drop_length in C1, C2. exists lr. split.
    { rewrite C1. do 3 f_equal. symmetry. by apply chain_root. }
    assert (Hxd : x ∉ drop (S d) dp).
    { rewrite <- (take_drop_middle dp d x Hx) in Hnd. apply NoDup_app in Hnd as (_ & _ & Hnd).
      by apply NoDup_cons in Hnd as [? _]. }
    assert (Hlr : ∀ d' x', dp !! d' = Some x' → (d <= d')%nat → lr !! x' = chain P s (length dp) !! d').
    { intros d' x' Hd' Hle. destruct (decide (d' = d)) as [->|Hne].
      - assert (x' = x) as -> by congruence. rewrite C3 by done. rewrite Hps. apply lookup_singleton.
      - assert (Hj : drop (S d) dp !! (d' - S d)%nat = Some x').
        { rewrite lookup_drop. by replace (S d + (d' - S d))%nat with d' by lia. }
        rewrite (C2 _ _ Hj). rewrite <- (chain_drop P s (length dp) d ps Hps). rewrite lookup_drop.
        by replace (S d + (d' - S d))%nat with d' by lia. }
    assert (Hlr0 : ∀ z, z ∉ drop d dp → lr !! z = None).
    { intros z Hz. rewrite (drop_S _ x d Hx) in Hz. apply not_elem_of_cons in Hz as [Hz1 Hz2].
      rewrite C3 by done. by apply lookup_singleton_ne. }
    split; cycle 1.
    { intros z s2 Hz. destruct (decide (z ∈ drop d dp)) as [Hd|Hd]; [|by rewrite Hlr0 in Hz].
      apply elem_of_list_lookup in Hd as [q Hq]. rewrite lookup_drop in Hq. exists (d + q)%nat.
      rewrite (Hlr (d + q)%nat z Hq) in Hz by lia. split_and!; [done| |done]. apply (Hdx _ _ Hq). lia. }
    eapply (rk_HInv_other t t' i s dp cp HT Hi Hc R m d own); [done|done| | | | |].
    - apply (hi_leaf _ _ _ _ HM).
    - apply (hi_dom _ _ _ _ HM).
    - intros z pk um _ Ez Hb. by apply (hi_key _ _ _ _ HM).
    - intros d' x' Hd' Hle. destruct (chain_is_some P s (length dp) d') as [p' Hp']. { by eapply lookup_lt_Some. }
      rewrite Hp'. apply lookup_union_Some_l. rewrite (Hlr d' x' Hd' Hle). done.
    - intros z Hz. rewrite lookup_union, (Hlr0 z Hz). by destruct (own !! z).
  Qed.

  (** ** Joining *)
  Lemma position_spec l k x : NoDup l → l !! k = Some x → position x l = Some k.
  Proof.
    revert k. induction l as [|a l IH]; intros k Hnd Hk; [done|]. cbn [position].
    apply NoDup_cons in Hnd as [Ha Hnd]. destruct k as [|k]; cbn in Hk.
    - injection Hk as ->. by rewrite N.eqb_refl.
    - destruct (N.eqb_spec a x) as [->|Hne]; [by apply elem_of_list_lookup_2 in Hk|]. by rewrite (IH k Hnd Hk).
  Qed.

  Lemma head_filter_first (Q : N → Prop) `{∀ x, Decision (Q x)} l d x : l !! d = Some x →
    (∀ d' x', l !! d' = Some x' → Q x' ↔ (d <= d')%nat) → head (filter Q l) = Some x.
  Proof.
    revert d. induction l as [|a l IH]; intros d Hd HQ; [done|]. rewrite filter_cons. destruct d as [|d]; cbn in Hd.
    - injection Hd as ->. rewrite decide_True; [done|]. apply (HQ O x); [done|lia].
    - rewrite decide_False; cycle 1. { intros HQa. apply (HQ O a) in HQa; [lia|done]. }
      apply (IH d Hd). intros d' x' Hd'. rewrite (HQ (S d') x' Hd'). lia.
  Qed.

  Lemma join_ok t t' i s dp cp j jsec (own : gmap N (secret P)) : TInv t → live t i → live t j → j ≠ i →
    direct_path i (num_leaves t) = Some dp → climbs (num_leaves t) i 0 dp cp → rekeyed t t' i s dp →
    (∀ d x, dp !! d = Some x → own !! x = chain P s (length dp) !! d) →
    (∃ l, get t (leaf_to_node j) = Some (Leaf l) ∧ l_pub l = pk_of P jsec) →
    (∀ x pk um, get t x = Some (Parent pk um) → below x j → j ∈ um) →
    ∃ jpath lca lsec, direct_path j (num_leaves t) = Some jpath ∧
      head (filter (λ x, x ∈ jpath) dp) = Some lca ∧ own !! lca = Some lsec ∧
      ∃ pos ownj, position lca jpath = Some pos ∧
        climb_secrets P lsec (drop (S pos) jpath) (<[lca := lsec]> {[leaf_to_node j := jsec]}) =
          (default (derive P s) (last (chain P s (length dp))), ownj) ∧
        HInv t' j ownj ∧
        (∀ x s', ownj !! x = Some s' → s' = jsec ∨ ∃ d, dp !! d = Some x ∧ below x j ∧ chain P s (length dp) !! d = Some s') ∧
        (∃ d, dp !! d = Some lca ∧ below lca j ∧ chain P s (length dp) !! d = Some lsec).
  Proof using L.
    intros HT Hi Hj Hji Edp Hc R Hown Hleaf Hum.
    pose proof (live_lt P t i HT Hi) as Hin. pose proof (live_lt P t j HT Hj) as Hjn.
    destruct (paths_spec (num_leaves t) j Hjn) as (jpath & jcp & Ejp & _ & Hcj).
    destruct (climbs_cover (num_leaves t) i 0 dp cp j Hin Hjn Hc) as (d & y & x & Hy & Hx & Hym & Hdx & Hdy).
    { rewrite anc_0. intros Hb. by apply below_leaf_eq in Hb. }
    pose proof (climbs_NoDup _ _ _ _ _ Hc) as Hnd. pose proof (climbs_NoDup _ _ _ _ _ Hcj) as Hndj.
    assert (Hinj : ∀ d' x', dp !! d' = Some x' → x' ∈ jpath ↔ (d <= d')%nat).
    { intros d' x' Hd'. rewrite <- (Hdx d' x' Hd'). apply elem_of_list_lookup_2 in Hd'.
      apply (climbs_elem _ _ _ _ _ _ Hin Hc) in Hd' as (K1 & K2 & K3).
      rewrite (climbs_elem _ _ _ _ _ _ Hjn Hcj). tauto. }
    destruct (chain_is_some P s (length dp) d) as [ps Hps]. { by eapply lookup_lt_Some. }
    exists jpath, x, ps. split; [done|]. split. { by apply (head_filter_first _ dp d). }
    split. { by rewrite (Hown d x Hx). }
    assert (Hxj : x ∈ jpath) by (apply (Hinj d x Hx); lia).
    apply elem_of_list_lookup in Hxj as [pos Hpos].
    assert (Hdrop : drop (S pos) jpath = drop (S d) dp).
    { destruct (climbs_drop _ _ _ _ _ _ _ Hc Hx) as [A1 A2]. destruct (climbs_drop _ _ _ _ _ _ _ Hcj Hpos) as [B1 B2].
      symmetry. eapply climbs_func; [exact A2|exact B2|]. by rewrite <- A1, <- B1. }
    assert (Hnd' : NoDup (drop (S d) dp)).
    { clear -Hnd. rewrite <- (take_drop (S d) dp) in Hnd. by apply NoDup_app in Hnd as (_ & _ & Hnd). }
    destruct (climb_spec P ps (drop (S d) dp) (<[x := ps]> {[leaf_to_node j := jsec]}) Hnd') as (lr & C1 & C2 & C3).
    rewrite drop_length in C1, C2. exists pos, lr. split; [by apply position_spec|]. split.
    { rewrite Hdrop, C1. f_equal. symmetry. by apply chain_root. }
    assert (Hxd : x ∉ drop (S d) dp).
    { rewrite <- (take_drop_middle dp d x Hx) in Hnd. apply NoDup_app in Hnd as (_ & _ & Hnd).
      by apply NoDup_cons in Hnd as [? _]. }
    pose proof (dp_not_leaf _ _ _ _ Hin Hc) as Hdl.
    assert (Hlr : ∀ d' x', dp !! d' = Some x' → (d <= d')%nat → lr !! x' = chain P s (length dp) !! d').
    { intros d' x' Hd' Hle. destruct (decide (d' = d)) as [->|Hne].
      - assert (x' = x) as -> by congruence. rewrite C3 by done. rewrite Hps. apply lookup_insert.
      - assert (Hj' : drop (S d) dp !! (d' - S d)%nat = Some x').
        { rewrite lookup_drop. by replace (S d + (d' - S d))%nat with d' by lia. }
        rewrite (C2 _ _ Hj'). rewrite <- (chain_drop P s (length dp) d ps Hps). rewrite lookup_drop.
        by replace (S d + (d' - S d))%nat with d' by lia. }
    assert (Hlr0 : ∀ z, z ∉ drop d dp → lr !! z = ({[leaf_to_node j := jsec]} : gmap N (secret P)) !! z).
    { intros z Hz. rewrite (drop_S _ x d Hx) in Hz. apply not_elem_of_cons in Hz as [Hz1 Hz2].
      rewrite C3 by done. by apply lookup_insert_ne. }
    split; cycle 1.
    { split.
      - intros z s' Hz. destruct (decide (z ∈ drop d dp)) as [Hd|Hd].
        + right. apply elem_of_list_lookup in Hd as [q Hq]. rewrite lookup_drop in Hq. exists (d + q)%nat.
          rewrite (Hlr (d + q)%nat z Hq) in Hz by lia. split_and!; [done| |done]. apply (Hdx _ _ Hq). lia.
        + left. rewrite Hlr0 in Hz by done. by apply lookup_singleton_Some in Hz as [_ <-].
      - exists d. split_and!; [done| |done]. apply (Hdx _ _ Hx). lia. }
    eapply (rk_HInv_other t t' i s dp cp HT Hi Hc R j d {[leaf_to_node j := jsec]}); [done|done| | | |exact Hlr|exact Hlr0].
    - destruct Hleaf as (l & E1 & E2). exists l, jsec. rewrite lookup_singleton. done.
    - intros z s' Hz. apply lookup_singleton_Some in Hz as [<- _]. apply below_leaf_refl.
    - intros z pk um Hz Ez Hb. rewrite decide_True by eauto. apply lookup_singleton_ne. intros <-.
      by eapply (ti_even _ _ HT).
  Qed.
End Proofs.
