(** Proofs about the session layer of a group. *)
From Coq Require Import ZifyBool ZifyNat ZifyN.
From stdpp Require Import prelude gmap.
From Verif Require Import Bytes Tree_Model Tree_Spec TreeMath_Proofs TreePath_Proofs Tree_Proofs TreeUpd_Proofs
  TreeApply_Proofs TreeWorld_Proofs GroupSession_Model GroupSession_Spec.
Local Open Scope N_scope.

Section Proofs.
  Context (P : prims) (L : laws P).
  Notation group := (group P).
  Notation tree := (list (node (pub P))).

  (** ** A member that processes its own removal *)
  Lemma try_open_none t nodes (own : gmap N (secret P)) dp cp : ∀ d0,
    (∀ y, y ∈ cp → ∃ rec, resolution P t y = Some rec ∧ ∀ r, r ∈ rec → own !! r = None) →
    try_open P t nodes own dp d0 cp = Err.
  Proof using.
    induction cp as [|c cp IH]; intros d0 Hs; cbn [try_open]; [done|].
    destruct (Hs c) as (rec & E1 & E2); [by left|]. rewrite E1, find_held_none by done. apply IH. intros y Hy. apply Hs. by right.
  Qed.

  (** the tree after a commit depends only on what the commit does not overwrite *)
  Lemma apply_tree t t1 e sec h g ks pr fresh rs t' dp cp nodes root own g' ks' tt ownk :
    committed P t t1 e sec h g ks pr fresh rs t' dp cp nodes root own g' ks' → TInv P t1 → live P t1 (g_leaf P g) →
    length tt = length t' →
    (∃ l l', get P tt (leaf_to_node (g_leaf P g)) = Some (Leaf l) ∧ get P t1 (leaf_to_node (g_leaf P g)) = Some (Leaf l') ∧
       l_cid l = l_cid l' ∧ l_index l = l_index l') →
    (∀ z, z ∉ dp → z ≠ leaf_to_node (g_leaf P g) → get P tt z = get P t' z) →
    apply_update_path P tt (mk_update_path (g_leaf P g) (pk_of P fresh) nodes) ownk = (t', try_open P t' nodes ownk dp 0 cp).
  Proof using.
    intros C HT Hi Hlen (l & l' & El & El1 & Ec & Ex) Hrest. set (i := g_leaf P g) in *.
    pose proof (cd_climbs _ _ _ _ _ _ _ _ _ _ _ _ _ _ _ _ _ _ _ C) as Hc. fold i in Hc.
    pose proof (cd_rekeyed _ _ _ _ _ _ _ _ _ _ _ _ _ _ _ _ _ _ _ C) as R. fold i in R.
    pose proof (cd_nodes _ _ _ _ _ _ _ _ _ _ _ _ _ _ _ _ _ _ _ C) as Hnl.
    pose proof (live_lt P t1 i HT Hi) as Hin.
    pose proof (climbs_length _ _ _ _ _ Hc) as Hlc. pose proof (climbs_NoDup _ _ _ _ _ Hc) as Hnd.
    pose proof (dp_not_leaf _ _ _ _ Hin Hc) as Hdl.
    assert (Hlen1 : length tt = length t1) by (rewrite Hlen; apply R).
    assert (Hn : num_leaves P tt = num_leaves P t1) by (unfold num_leaves; by rewrite Hlen1).
    unfold apply_update_path. cbn [up_leaf up_leaf_pub up_nodes].
    pose proof (cd_dp _ _ _ _ _ _ _ _ _ _ _ _ _ _ _ _ _ _ _ C) as Edp. pose proof (cd_cp _ _ _ _ _ _ _ _ _ _ _ _ _ _ _ _ _ _ _ C) as Ecp.
    fold i in Edp, Ecp. rewrite Hn. rewrite Edp, Ecp. rewrite El.
    replace (length dp =? length nodes)%nat with true by (symmetry; apply Nat.eqb_eq; lia). cbn [negb].
    pose proof (get_lt P _ _ _ El) as Hll. rewrite set_node_ok by done. cbv zeta.
    set (t2 := <[N.to_nat (leaf_to_node i) := Leaf (mk_leaf (l_cid l) (pk_of P fresh) (l_index l))]> tt).
    destruct (install_spec P t2 dp nodes) as (t3 & F1 & F2 & F3 & F4); [lia|done| |].
    { intros x Hx. unfold t2. rewrite insert_length, Hlen1. apply (climbs_elem _ _ _ _ _ _ Hin Hc) in Hx as (_ & Hx & _).
      by apply TInv_lt. }
    rewrite F1. assert (t3 = t') as ->; [|done].
    apply (tree_eq P). intros x. destruct (rk_cases P t1 t' i fresh dp R x) as [(j & ps & Hj & Hps & E')|[->|(Hx & Hne & E')]].
    - destruct (lookup_lt_is_Some_2 nodes j) as [pn Hpn]. { rewrite Hnl. by eapply lookup_lt_Some. }
      rewrite (F3 j x pn Hj Hpn), E'. destruct (cd_pub _ _ _ _ _ _ _ _ _ _ _ _ _ _ _ _ _ _ _ C j pn Hpn) as (ps' & Hps' & ->). congruence.
    - rewrite F4 by (apply Hdl). unfold t2. rewrite get_insert by done. rewrite decide_True by done.
      destruct (rk_leaf _ _ _ _ _ _ R) as (l2 & E1 & E2). rewrite E2. rewrite El1 in E1. injection E1 as <-. congruence.
    - rewrite F4 by done. unfold t2. rewrite get_insert by done. rewrite decide_False by done. by apply Hrest.
  Qed.

  Lemma removed_stuck t t1 e sec h g ks i fresh rs t' dp cp nodes root own g' ks' k :
    committed P t t1 e sec h g ks [PRemove i] fresh rs t' dp cp nodes root own g' ks' → TInv P t → removed P t t1 i → TInv P t1 →
    live P t1 (g_leaf P g) → i ≠ g_leaf P g → i < num_leaves P t → g_tree P k = t → (∀ x s, g_own P k !! x = Some s → below x i) →
    let c := mk_commit [PRemove i] (mk_update_path (g_leaf P g) (pk_of P fresh) nodes) in
    process_commit P k c = (with_tree P k t', Err) ∧
    process_commit P (with_tree P k t') c = (with_tree P k t', Err).
  Proof using.
    intros C HT Hrm HT1 Hi Hig Hin Ek Hown c.
    pose proof (cd_climbs _ _ _ _ _ _ _ _ _ _ _ _ _ _ _ _ _ _ _ C) as Hc.
    pose proof (cd_rekeyed _ _ _ _ _ _ _ _ _ _ _ _ _ _ _ _ _ _ _ C) as R.
    pose proof (cd_TInv _ _ _ _ _ _ _ _ _ _ _ _ _ _ _ _ _ _ _ C) as HT'.
    pose proof (live_lt P t1 _ HT1 Hi) as Hgl.
    assert (Herr : try_open P t' nodes (g_own P k) dp 0 cp = Err).
    { apply try_open_none. intros y Hy. apply elem_of_list_lookup in Hy as [j Hj].
      destruct (climbs_sibling_in _ _ _ _ _ _ _ Hc Hj) as (Hw & _).
      rewrite <- (rk_num P _ _ _ _ _ R) in Hw.
      destruct (resolution_ok P t' y HT' Hw) as (rec & E1 & E2). exists rec. split; [done|].
      intros r Hr. destruct (g_own P k !! r) as [s|] eqn:Es; [exfalso|done].
      destruct (ro_in _ _ _ _ E2 r Hr) as [(nd & pk & G1 & G2) G3].
      assert (Hnb : ¬ below r (g_leaf P g)).
      { intros Hb. exact (climbs_sibling_notin _ _ _ _ _ _ _ Hgl Hc Hj (G3 _ Hb)). }
      rewrite (rk_rest _ _ _ _ _ _ R) in G1.
      - apply (rm_some P _ _ _ Hrm) in G1 as [_ G1]; [|by intros ->]. by apply G1, (Hown r s).
      - intros Hz. apply (climbs_elem _ _ _ _ _ _ Hgl Hc) in Hz as (Hz & _). done.
      - intros ->. apply Hnb, below_leaf_refl. }
    destruct (remove_leaf_ok P t i HT Hin) as (t1' & Er & Hr1).
    assert (t1' = t1) as ->.
    { apply (tree_eq P). intros x. destruct (decide (below x i)).
      - by rewrite (rm_blank _ _ _ _ Hr1), (rm_blank _ _ _ _ Hrm).
      - by rewrite (rm_rest _ _ _ _ Hr1), (rm_rest _ _ _ _ Hrm). }
    pose proof (rk_num P _ _ _ _ _ R) as Hnum. pose proof (rm_num P _ _ _ Hrm) as Hnum1.
    destruct (remove_leaf_ok P t' i HT') as (t2 & Er2 & Hr2). { rewrite Hnum. by rewrite Hnum1. }
    destruct (rk_leaf _ _ _ _ _ _ R) as (l & El & El'). split.
    - unfold process_commit. cbn [cm_proposals c apply_proposals apply_proposal]. rewrite Ek, Er. change (cm_path c) with (mk_update_path (g_leaf P g) (pk_of P fresh) nodes : update_path (pub P) (ctext P)).
      rewrite (apply_tree _ _ _ _ _ _ _ _ _ _ _ _ _ _ _ _ _ _ t1 (g_own P k) C HT1 Hi); [by rewrite Herr| | |].
      + symmetry. apply R.
      + by exists l, l.
      + intros z Hz Hz'. symmetry. by apply R.
    - unfold process_commit. cbn [cm_proposals c apply_proposals apply_proposal with_tree g_tree g_own]. rewrite Er2. change (cm_path c) with (mk_update_path (g_leaf P g) (pk_of P fresh) nodes : update_path (pub P) (ctext P)).
      rewrite (apply_tree _ _ _ _ _ _ _ _ _ _ _ _ _ _ _ _ _ _ t2 (g_own P k) C HT1 Hi); [by rewrite Herr| | |].
      + apply (rm_len _ _ _ _ Hr2).
      + exists (mk_leaf (l_cid l) (pk_of P fresh) (l_index l)), l. split; [|split; [exact El|split; reflexivity]]. rewrite (rm_rest _ _ _ _ Hr2); [exact El'|].
        intros Hb. apply below_leaf_eq in Hb. done.
      + intros z Hz Hz'. destruct (decide (below z i)) as [Hb|Hb]; [|by apply Hr2].
        rewrite (rm_blank _ _ _ _ Hr2 z Hb), (rk_rest _ _ _ _ _ _ R z Hz Hz'), (rm_blank _ _ _ _ Hrm z Hb). by destruct (get P t z).
  Qed.

  Lemma deliver_elem c ms ms' k : deliver P c ms = Some ms' → k ∈ ms → ∃ k', process_commit P k c = (k', Ok tt) ∧ k' ∈ ms'.
  Proof using.
    revert ms'. induction ms as [|g ms IH]; intros ms' Hd Hk; [by apply elem_of_nil in Hk|]. cbn [deliver] in Hd.
    destruct (process_commit P g c) as [g' [[]| |]] eqn:E; try done. destruct (deliver P c ms) as [r|]; [|done]. injection Hd as <-.
    apply elem_of_cons in Hk as [->|Hk].
    - exists g'. split; [done|by left].
    - destruct (IH r eq_refl Hk) as (k' & E1 & E2). exists k'. split; [done|by right].
  Qed.
  Lemma process_leaf k c k' r : process_commit P k c = (k', r) → g_leaf P k' = g_leaf P k.
  Proof using.
    unfold process_commit. destruct (apply_proposals P _ _) as [t1|]; [|by intros [= <- _]].
    destruct (apply_update_path P _ _ _) as [t2 [[r0 lr]| |]]; by intros [= <- _].
  Qed.

  (** ** One thing the owner does *)
  Definition slot_cid (t : tree) (i c : N) : Prop := ∃ l, get P t (leaf_to_node i) = Some (Leaf l) ∧ l_cid l = c.

  Record link (cid0 : N) (ms : list group) (em : emitted P) (ms' : list group) : Prop := mk_link {
    lk_stay : ∀ k, k ∈ tail ms → PRemove (g_leaf P k) ∉ cm_proposals (em_commit P em) →
      ∃ k', process_commit P k (em_commit P em) = (k', Ok tt) ∧ k' ∈ tail ms' ∧ g_leaf P k' = g_leaf P k;
    lk_gone : ∀ k, k ∈ tail ms → PRemove (g_leaf P k) ∈ cm_proposals (em_commit P em) →
      ∃ tr, process_commit P k (em_commit P em) = (with_tree P k tr, Err) ∧
            process_commit P (with_tree P k tr) (em_commit P em) = (with_tree P k tr, Err);
    lk_join : ∀ js w, em_welcome P em = Some (js, w) →
      ∃ gj, join_from_welcome P w js = Ok gj ∧ gj ∈ tail ms' ∧ g_leaf P gj = w_joiner P w }.

  (** the world [ms] with its owner at the head, [n] commits after the founding *)
  Definition world (cid0 : N) (n : nat) (ms : list group) : Prop :=
    ∃ g rest t sec h, ms = g :: rest ∧ view P ms t (N.of_nat n) sec h ∧ slot_cid t (g_leaf P g) cid0.

  Lemma join_leaf w js gj : join_from_welcome P w js = Ok gj → g_leaf P gj = w_joiner P w.
  Proof using.
    unfold join_from_welcome. destruct (hopen P js _) as [[|a [|b [|]]]|]; try done.
    destruct (direct_path _ _) as [dp|]; [|done]. destruct (position _ _) as [pos|]; [|done].
    destruct (climb_secrets P _ _ _) as [r0 o0]. by intros [= <-].
  Qed.

  Lemma owner_do_ok cid0 n g rest s o : world cid0 n (g :: rest) → sensible P cid0 o →
    owner_do P (mk_cgka P (Some g) s true) o = (mk_cgka P (Some g) s true, None) ∨
    ∃ g' rest' em, owner_do P (mk_cgka P (Some g) s true) o = (mk_cgka P (Some g') s true, Some em) ∧
      em_epoch P em = N.of_nat (S n) ∧ world cid0 (S n) (g' :: rest') ∧ link cid0 (g :: rest) em (g' :: rest').
  Proof using L.
    intros (g0 & rest0 & t & sec & h & [= <- <-] & HV & Hcid) Hsens.
    assert (Eg : (g :: rest) !! 0%nat = Some g) by done.
    destruct (view_at P _ _ _ _ _ 0 g HV Eg) as ((A1 & A2 & A3 & A4) & HH & Hgl & Hks & Hkh & Hgn & Hkn & Hlv).
    cbn [delete list_delete] in Hks, Hkh, Hgn, Hkn, Hlv. pose proof HV as (HT & Ha & Hm & _).
    assert (Hslot : ∀ t1 t' fresh dp, (∀ l, get P t (leaf_to_node (g_leaf P g)) = Some (Leaf l) → l_cid l = cid0 →
        slot_cid t1 (g_leaf P g) cid0) → rekeyed P t1 t' (g_leaf P g) fresh dp → slot_cid t' (g_leaf P g) cid0).
    { intros t1 t' fresh dp H1 R. destruct Hcid as (l & E1 & E2). destruct (H1 l E1 E2) as (l1 & E3 & E4).
      destruct (rk_leaf _ _ _ _ _ _ R) as (l2 & E5 & E6). rewrite E3 in E5. injection E5 as <-. eexists. split; [exact E6|done]. }
    destruct o as [cid joiner fresh rs wr|cid fresh rs|fresh rs]; cbn [owner_do].
    - (* add *) right.
      destruct (step_add P L _ _ _ _ _ 0 fresh rs cid joiner wr g HV Eg)
        as (j & t1 & t' & dp & cp & nodes & root & own & g' & ks' & gj & w & lca & lsec & Hv & Had & HT1 & Hl1 & Hjg & Hjn & C
            & EC & _ & _ & (hv & Fv) & Ej & HHj & _ & ES).
      cbn [delete list_delete] in C.
      pose proof (cd_leaves P _ _ _ _ _ _ _ _ _ _ _ _ _ _ _ _ _ _ C) as El. rewrite !fmap_cons in El. injection El as El1 El2.
      pose proof (cd_g' _ _ _ _ _ _ _ _ _ _ _ _ _ _ _ _ _ _ _ C) as Eg'.
      unfold s_add_member. cbn [c_owner negb c_group]. rewrite EC. eexists g', (gj :: ks'), _. split; [reflexivity|].
      split. { cbn [em_epoch]. rewrite Eg'. cbn [advance_epoch g_epoch]. rewrite A2. lia. }
      split.
      + eexists g', (gj :: ks'), t', _, _. split; [done|]. split.
        * split; [apply C|]. replace (N.of_nat (S n)) with (N.of_nat n + 1) by lia. split; [exact Fv|]. split; [|split].
          -- pose proof (cd_HInv _ _ _ _ _ _ _ _ _ _ _ _ _ _ _ _ _ _ _ C) as FH. apply Forall_cons in FH as [FH1 FH2].
             constructor; [done|]. constructor; [by rewrite Ej|done].
          -- intros i. rewrite !fmap_cons, !elem_of_cons, El1, El2, Ej.
             rewrite (cd_live _ _ _ _ _ _ _ _ _ _ _ _ _ _ _ _ _ _ _ C), Hl1, Hlv. tauto.
          -- rewrite !fmap_cons, El1, El2, Ej. constructor; [|constructor; [|done]].
             ++ rewrite elem_of_cons. intros [?|?]; [by apply Hjg|done].
             ++ intros Hj. apply Hjn. apply Hlv. by right.
        * rewrite El1. apply (Hslot t1 t' fresh dp); [|apply C]. intros l E1 E2. exists l. split; [|done].
          rewrite (ad_rest _ _ _ _ _ Had). 2:{ intros E. apply Hjg. unfold leaf_to_node in E. lia. }
          rewrite decide_False. 2:{ intros Hb. apply below_leaf_eq in Hb. done. }
          unfold gext. by rewrite E1.
      + split; cbn [tail em_commit em_welcome cm_proposals].
        * intros k Hk _. destruct (deliver_elem _ _ _ k (cd_deliver _ _ _ _ _ _ _ _ _ _ _ _ _ _ _ _ _ _ _ C) Hk) as (k' & E1 & E2).
          exists k'. split; [exact E1|]. split; [by right|by eapply process_leaf].
        * intros k _ Hin. apply elem_of_list_singleton in Hin. done.
        * intros js w' [= <- <-]. cbn [step] in ES. rewrite Eg, EC in ES.
          destruct (join_from_welcome P w joiner) as [gj'| |] eqn:EJ; try done.
          destruct (deliver P _ _) as [rr|]; [|done]. injection ES as -> _. exists gj.
          split; [done|]. split; [by left|]. by eapply join_leaf.
    - (* kick *)
      unfold s_remove_by_cid. cbn [c_owner negb c_group]. rewrite A1.
      destruct (leaf_index_of_cid P t cid) as [i|] eqn:Ei; [right|by left].
      assert (Hi : i < num_leaves P t ∧ slot_cid t i cid).
      { unfold leaf_index_of_cid in Ei. apply head_Some_elem_of, elem_of_list_filter in Ei as [E1 E2].
        apply elem_of_list_fmap in E2 as (q & -> & E2). apply elem_of_seq in E2. split; [lia|].
        unfold slot_cid. destruct (get P t (leaf_to_node (N.of_nat q))) as [[l| |]|]; try done.
        exists l. split; [done|]. apply N.eqb_eq. by destruct (l_cid l =? cid). }
      destruct Hi as [Hi (li & Hli & Ecli)]. cbn in Hsens.
      assert (Hig : i ≠ g_leaf P g).
      { intros ->. destruct Hcid as (l & E1 & E2). rewrite Hli in E1. injection E1 as <-. congruence. }
      destruct (step_remove P L _ _ _ _ _ 0 fresh rs i g HV Eg Hig Hi)
        as (t1 & t' & dp & cp & nodes & root & own & g' & ks' & Hrm & HT1 & Hl1 & C & EC & ES).
      cbn [delete list_delete] in C.
      pose proof (cd_leaves P _ _ _ _ _ _ _ _ _ _ _ _ _ _ _ _ _ _ C) as El. rewrite !fmap_cons in El. injection El as El1 El2.
      pose proof (cd_g' _ _ _ _ _ _ _ _ _ _ _ _ _ _ _ _ _ _ _ C) as Eg'.
      unfold s_remove_member. cbn [c_owner negb c_group]. rewrite EC.
      eexists g', ks', _. split; [reflexivity|].
      split. { cbn [em_epoch]. rewrite Eg'. cbn [advance_epoch g_epoch]. rewrite A2. lia. }
      assert (Hkl : g_leaf P <$> filter (λ m, g_leaf P m ≠ i) rest = filter (λ q, q ≠ i) (g_leaf P <$> rest)) by apply fmap_filter_leaf.
      split.
      + destruct (committed_view P _ _ _ _ _ _ _ _ _ _ _ _ _ _ _ _ _ _ C) as (h' & HV').
        { rewrite fmap_cons, Hkl. constructor; [|by apply NoDup_filter]. intros Hin. apply elem_of_list_filter in Hin as [_ Hin]. done. }
        { intros q. rewrite fmap_cons, elem_of_cons, Hkl, elem_of_list_filter, Hl1, Hlv. split.
          - intros [[->|?] ?]; tauto.
          - intros [->|[? ?]]; [|tauto]. split; [by left|]. intros E'. by apply Hig. }
        eexists g', ks', t', _, _. split; [done|]. replace (N.of_nat (S n)) with (N.of_nat n + 1) by lia. split; [exact HV'|].
        rewrite El1. apply (Hslot t1 t' fresh dp); [|apply C]. intros l E1 E2. exists l. split; [|done].
        rewrite (rm_rest _ _ _ _ Hrm); [done|]. intros Hb. apply below_leaf_eq in Hb. by apply Hig.
      + split; cbn [tail em_commit em_welcome cm_proposals].
        * intros k Hk Hn. destruct (deliver_elem _ _ _ k (cd_deliver _ _ _ _ _ _ _ _ _ _ _ _ _ _ _ _ _ _ _ C)) as (k' & E1 & E2).
          { apply elem_of_list_filter. split; [|done]. intros E. apply Hn. rewrite E. by left. }
          exists k'. split; [exact E1|]. split; [exact E2|by eapply process_leaf].
        * intros k Hk Hin. apply elem_of_list_singleton in Hin. injection Hin as Ek. exists t'.
          rewrite Forall_forall in Hks, Hkh. destruct (Hks k Hk) as (At & _).
          eapply (removed_stuck _ _ _ _ _ _ _ _ _ _ _ _ _ _ _ _ _ _ k C); try done.
          -- apply Hl1. split; [done|]. intros E. by apply Hig.
          -- intros x s' Hx. rewrite <- Ek. by eapply (hi_dom _ _ _ _ (Hkh k Hk)).
        * done.
    - (* re-key *) right.
      destruct (step_update P L _ _ _ _ _ 0 fresh rs g HV Eg) as (t' & dp & cp & nodes & root & own & g' & ks' & C & EC & ES).
      cbn [delete list_delete] in C.
      pose proof (cd_leaves P _ _ _ _ _ _ _ _ _ _ _ _ _ _ _ _ _ _ C) as El. rewrite !fmap_cons in El. injection El as El1 El2.
      pose proof (cd_g' _ _ _ _ _ _ _ _ _ _ _ _ _ _ _ _ _ _ _ C) as Eg'.
      unfold s_rekey. cbn [c_owner negb c_group]. rewrite EC. eexists g', ks', _. split; [reflexivity|].
      split. { cbn [em_epoch]. rewrite Eg'. cbn [advance_epoch g_epoch]. rewrite A2. lia. }
      split.
      + destruct (committed_view P _ _ _ _ _ _ _ _ _ _ _ _ _ _ _ _ _ _ C) as (h' & HV').
        { rewrite fmap_cons. by constructor. } { intros q. by rewrite fmap_cons, elem_of_cons. }
        eexists g', ks', t', _, _. split; [done|]. replace (N.of_nat (S n)) with (N.of_nat n + 1) by lia. split; [exact HV'|].
        rewrite El1. apply (Hslot t t' fresh dp); [|apply C]. intros l E1 E2. by exists l.
      + split; cbn [tail em_commit em_welcome cm_proposals].
        * intros k Hk _. destruct (deliver_elem _ _ _ k (cd_deliver _ _ _ _ _ _ _ _ _ _ _ _ _ _ _ _ _ _ _ C) Hk) as (k' & E1 & E2).
          exists k'. split; [exact E1|]. split; [exact E2|by eapply process_leaf].
        * intros k _ Hin. by apply elem_of_nil in Hin.
        * done.
  Qed.

  (** an add with an honest key package and a re-key always go out *)
  Lemma owner_sends cid0 n g rest s : world cid0 n (g :: rest) →
    (∀ cid joiner fresh rs wr, ∃ w cm,
       (s_add_member P (mk_cgka P (Some g) s true) (key_package P cid joiner) fresh rs wr).2 = Ok (w, cm, N.of_nat (S n))) ∧
    (∀ fresh rs, ∃ cm, (s_rekey P (mk_cgka P (Some g) s true) fresh rs).2 = Ok (cm, N.of_nat (S n))).
  Proof using L.
    intros (g0 & rest0 & t & sec & h & [= <- <-] & HV & Hcid).
    assert (Eg : (g :: rest) !! 0%nat = Some g) by done.
    destruct (view_at P _ _ _ _ _ 0 g HV Eg) as ((A1 & A2 & A3 & A4) & _).
    split.
    - intros cid joiner fresh rs wr.
      destruct (step_add P L _ _ _ _ _ 0 fresh rs cid joiner wr g HV Eg)
        as (j & t1 & t' & dp & cp & nodes & root & own & g' & ks' & gj & w & lca & lsec & Hv & Had & HT1 & Hl1 & Hjg & Hjn & C
            & EC & _).
      pose proof (cd_g' _ _ _ _ _ _ _ _ _ _ _ _ _ _ _ _ _ _ _ C) as Eg'.
      unfold s_add_member. cbn [c_owner negb c_group]. rewrite EC. do 2 eexists. cbn [snd].
      rewrite Eg'. cbn [advance_epoch g_epoch]. rewrite A2. do 2 f_equal. lia.
    - intros fresh rs.
      destruct (step_update P L _ _ _ _ _ 0 fresh rs g HV Eg) as (t' & dp & cp & nodes & root & own & g' & ks' & C & EC & _).
      pose proof (cd_g' _ _ _ _ _ _ _ _ _ _ _ _ _ _ _ _ _ _ _ C) as Eg'.
      unfold s_rekey. cbn [c_owner negb c_group]. rewrite EC. eexists. cbn [snd].
      rewrite Eg'. cbn [advance_epoch g_epoch]. rewrite A2. do 2 f_equal. lia.
  Qed.

  (** ** The owner's whole history *)
  Lemma owner_run_snoc os o : ∀ c, owner_run P c (os ++ [o]) =
    let '(c1, es) := owner_run P c os in
    let '(c2, e) := owner_do P c1 o in (c2, es ++ match e with Some em => [em] | None => [] end).
  Proof using.
    induction os as [|a os IH]; intros c; cbn [app owner_run].
    - destruct (owner_do P c o) as [c2 [em|]]; done.
    - destruct (owner_do P c a) as [c' e]. rewrite IH. destruct (owner_run P c' os) as [c1 es].
      destruct (owner_do P c1 o) as [c2 e2]. by destruct e.
  Qed.

  Record owner_trace (cid0 : N) (s0 : secret P) (os : list (oop P)) (ems : list (emitted P)) (W : nat → list group) : Prop := mk_ot {
    ot_world : ∀ k, (k <= length ems)%nat → world cid0 k (W k);
    ot_link : ∀ k em, ems !! k = Some em → em_epoch P em = N.of_nat (S k) ∧ link cid0 (W k) em (W (S k));
    ot_prefix : ∀ k, (k <= length ems)%nat → ∃ q g rest, (q <= length os)%nat ∧ W k = g :: rest ∧
      owner_run P (new_owner P cid0 s0) (take q os) = (mk_cgka P (Some g) s0 true, take k ems);
    ot_last : ∃ g rest, W (length ems) = g :: rest ∧
      owner_run P (new_owner P cid0 s0) os = (mk_cgka P (Some g) s0 true, ems) }.

  Lemma owner_trace_ok cid0 s0 os : Forall (sensible P cid0) os → ∃ ems W, owner_trace cid0 s0 os ems W.
  Proof using L.
    induction os as [|o os IH] using rev_ind; intros Hs.
    - exists [], (λ _, founded P cid0 s0). split; cbn [length].
      + intros k Hk. assert (k = 0)%nat as -> by lia.
        destruct (WInv_view P _ (founded_ok P cid0 s0)) as (t & e & sec & h & HV).
        pose proof HV as (_ & Ha & _). unfold founded in Ha. apply Forall_cons in Ha as [(E1 & E2 & _) _].
        eexists _, [], t, sec, h. split; [reflexivity|]. split.
        * assert (Ee : e = N.of_nat 0) by (rewrite <- E2; reflexivity). rewrite <- Ee. exact HV.
        * rewrite <- E1. eexists. split; [reflexivity|]. reflexivity.
      + done.
      + intros k Hk. assert (k = 0)%nat as -> by lia. exists 0%nat. eexists _, []. split; [lia|]. split; [reflexivity|]. done.
      + eexists _, []. split; reflexivity.
    - apply Forall_app in Hs as [Hs1 Hs2]. apply Forall_cons in Hs2 as [Hs2 _].
      destruct (IH Hs1) as (ems & W & [T1 T2 T3 T4]). destruct T4 as (g & rest & EW & ER).
      pose proof (T1 (length ems) ltac:(lia)) as HW. rewrite EW in HW.
      destruct (owner_do_ok cid0 _ g rest s0 o HW Hs2) as [E|(g' & rest' & em & E & Ee & HW' & HL)].
      + exists ems, W. split; [done|done| |].
        * intros k Hk. destruct (T3 k Hk) as (q & g1 & r1 & H1 & H2 & H3). exists q, g1, r1. rewrite app_length.
          split; [lia|]. split; [done|]. by rewrite take_app_le.
        * exists g, rest. split; [done|]. rewrite owner_run_snoc, ER, E. by rewrite app_nil_r.
      + exists (ems ++ [em]), (λ k, if decide (k = S (length ems)) then g' :: rest' else W k).
        assert (ER' : owner_run P (new_owner P cid0 s0) (os ++ [o]) = (mk_cgka P (Some g') s0 true, ems ++ [em])).
        { by rewrite owner_run_snoc, ER, E. }
        split.
        * intros k Hk. destruct (decide (k = S (length ems))) as [->|Hne]; [done|]. apply T1. rewrite app_length in Hk. cbn in Hk. lia.
        * intros k em' Hk. apply lookup_app_Some in Hk as [Hk|[Hk1 Hk2]].
          -- pose proof (lookup_lt_Some _ _ _ Hk). rewrite !decide_False by lia. by apply T2.
          -- destruct (k - length ems)%nat as [|q] eqn:Eq; [|done]. injection Hk2 as <-. assert (k = length ems) as -> by lia.
             rewrite decide_False by lia. rewrite decide_True by done. split; [done|]. by rewrite EW.
        * intros k Hk. rewrite app_length in Hk. cbn in Hk. destruct (decide (k = S (length ems))) as [->|Hne].
          -- exists (length (os ++ [o])), g', rest'. rewrite app_length. cbn [length]. split; [lia|]. split; [done|].
             rewrite !take_ge by (rewrite app_length; cbn; lia). done.
          -- destruct (T3 k) as (q & g1 & r1 & H1 & H2 & H3); [lia|]. exists q, g1, r1. rewrite app_length.
             split; [lia|]. split; [done|]. rewrite !take_app_le by lia. done.
        * exists g', rest'. rewrite app_length. cbn [length]. rewrite decide_True by lia. done.
  Qed.

  Lemma removes_dec (i : N) (l : list (proposal (pub P))) : PRemove i ∈ l ∨ PRemove i ∉ l.
  Proof using.
    induction l as [|p l IH]; [right; apply not_elem_of_nil|]. destruct IH as [IH|IH]; [left; by right|].
    assert (H : PRemove i = p ∨ PRemove i ≠ p).
    { destruct p as [kp|i']; [by right|]. destruct (decide (i = i')) as [->|Hn]; [by left|]. right. by intros [= ?]. }
    destruct H as [->|H]; [left; by left|]. right. by apply not_elem_of_cons.
  Qed.

  (** ** One member *)
  Section Member.
    Context (cid0 : N) (s0 : secret P) (os : list (oop P)) (ems : list (emitted P)) (W : nat → list group)
      (T : owner_trace cid0 s0 os ems W).
    Context (j : nat) (em : emitted P) (js : secret P) (w : welcome P) (cid : N).
    Context (Hj : ems !! j = Some em) (Hw : em_welcome P em = Some (js, w)).
    Let init := (new_joiner P cid js).1.
    Let slot := w_joiner P w.
    Let st k := member_run P ems w init (in_order j k).

    Definition alive (k : nat) (g : group) : Prop :=
      g ∈ tail (W k) ∧ g_leaf P g = slot ∧ ∀ i, (j < i < k)%nat → ¬ removes P ems i slot.
    Definition stuck (k : nat) (g : group) : Prop :=
      ∃ r em', (j < r < k)%nat ∧ ems !! r = Some em' ∧ PRemove slot ∈ cm_proposals (em_commit P em') ∧
        g_epoch P g = N.of_nat r ∧ process_commit P g (em_commit P em') = (g, Err).

    Lemma alive_epoch k g : (k <= length ems)%nat → alive k g → g_epoch P g = N.of_nat k.
    Proof using T.
      intros Hk (Hg & _). destruct (ot_world _ _ _ _ _ T k Hk) as (go & rest & t & sec & h & E & HV & _).
      destruct HV as (_ & Ha & _). rewrite Forall_forall in Ha. destruct (Ha g) as (_ & E2 & _); [|done].
      rewrite E in Hg |- *. by right.
    Qed.

    Lemma st_S k : (j < k)%nat → st (S k) = member_do P ems w (st k) (DCommit k).
    Proof using.
      intros Hk. unfold st, in_order, member_run. replace (S k - S j)%nat with (S (k - S j)) by lia.
      rewrite seq_S, fmap_app. rewrite app_comm_cons, foldl_app. cbn [foldl fmap list_fmap].
      by replace (S j + (k - S j))%nat with k by lia.
    Qed.
    Lemma join_state c : c_leaf_secret P c = js → c_owner P c = false →
      (s_join P c w).1 = st (S j) ∧ ∃ g, st (S j) = mk_cgka P (Some g) js false ∧ alive (S j) g.
    Proof using Hj Hw T.
      intros Ec Eo. destruct (ot_link _ _ _ _ _ T j em Hj) as [_ HL]. destruct (lk_join _ _ _ _ HL js w Hw) as (gj & E1 & E2 & E3).
      assert (E : st (S j) = mk_cgka P (Some gj) js false).
      { unfold st, in_order. rewrite Nat.sub_diag. cbn. unfold s_join. cbn [c_leaf_secret]. by rewrite E1. }
      split.
      - rewrite E. unfold s_join. rewrite Ec, E1. cbn. unfold with_group. by rewrite Ec, Eo.
      - exists gj. split; [done|]. split_and!; [done|done|]. intros i Hi. lia.
    Qed.

    Lemma st_ok k : (j < k <= length ems)%nat → ∃ g, st k = mk_cgka P (Some g) js false ∧ (alive k g ∨ stuck k g).
    Proof using Hj Hw T.
      induction k as [|k IH]; [lia|]. intros Hk. destruct (decide (k = j)) as [->|Hne].
      { destruct (join_state init eq_refl eq_refl) as (_ & g & E & HA). exists g. split; [done|by left]. }
      destruct IH as (g & E & HS); [lia|]. rewrite st_S by lia. rewrite E. cbn [member_do].
      destruct (lookup_lt_is_Some_2 ems k) as [ek Ek]; [lia|]. rewrite Ek.
      destruct (ot_link _ _ _ _ _ T k ek Ek) as [Ee HL].
      unfold s_process_commit. cbn [c_group]. rewrite Ee. destruct HS as [HA|(r & em' & Hr & Er & Hrm & Hep & Hst)].
      - rewrite (alive_epoch k g) by (done || lia). replace (N.of_nat (S k) =? N.of_nat k + 1) with true by lia. cbn [negb].
        pose proof HA as (Hg & Hlf & Hno).
        destruct (removes_dec slot (cm_proposals (em_commit P ek))) as [Hrem|Hrem].
        + destruct (lk_gone _ _ _ _ HL g Hg) as (tr & E1 & E2); [by rewrite Hlf|]. rewrite E1. cbn [fst].
          eexists. split; [reflexivity|]. right. exists k, ek. split; [lia|]. split_and!; [done|done| |exact E2].
          cbn [with_tree g_epoch]. apply alive_epoch; [lia|done].
        + destruct (lk_stay _ _ _ _ HL g Hg) as (g' & E1 & E2 & E3); [by rewrite Hlf|]. rewrite E1. cbn [fst].
          eexists. split; [reflexivity|]. left. split_and!; [done|congruence|].
          intros i Hi. destruct (decide (i = k)) as [->|]; [|apply Hno; lia].
          intros (em' & Em & Hin). rewrite Ek in Em. injection Em as <-. done.
      - rewrite Hep. replace (N.of_nat (S k) =? N.of_nat r + 1) with false by lia. cbn [negb fst].
        exists g. split; [done|]. right. exists r, em'. split_and!; try done; lia.
    Qed.

    Lemma any_delivery ds : member_run P ems w init ds = init ∨
      ∃ k, (j < k <= length ems)%nat ∧ member_run P ems w init ds = st k.
    Proof using Hj Hw T.
      induction ds as [|d ds IH] using rev_ind; [by left|]. unfold member_run in *. rewrite foldl_app. cbn [foldl].
      pose proof (lookup_lt_Some _ _ _ Hj) as Hlt.
      destruct d as [|i]; cbn [member_do].
      - right. exists (S j). split; [lia|]. destruct IH as [->|(k & Hk & ->)].
        + by apply join_state.
        + destruct (st_ok k Hk) as (g & E & _). rewrite E. by apply join_state.
      - destruct (ems !! i) as [ei|] eqn:Ei; [|exact IH].
        destruct IH as [->|(k & Hk & ->)]; [by left|right].
        destruct (st_ok k Hk) as (g & E & HS). destruct (ot_link _ _ _ _ _ T i ei Ei) as [Ee _].
        destruct HS as [HA|(r & em' & Hr & Er & Hrm & Hep & Hst)].
        + destruct (decide (i = k)) as [->|Hne].
          * exists (S k). apply lookup_lt_Some in Ei as Hi. split; [lia|]. rewrite st_S by lia. cbn [member_do]. by rewrite Ei.
          * exists k. split; [done|]. rewrite E. unfold s_process_commit. cbn [c_group]. rewrite Ee, (alive_epoch k g) by (done || lia).
            replace (N.of_nat (S i) =? N.of_nat k + 1) with false by lia. done.
        + exists k. split; [done|]. rewrite E. unfold s_process_commit. cbn [c_group]. rewrite Ee, Hep.
          destruct (decide (i = r)) as [->|Hne].
          * rewrite Ei in Er. injection Er as <-. replace (N.of_nat (S r) =? N.of_nat r + 1) with true by lia. cbn [negb].
            by rewrite Hst.
          * replace (N.of_nat (S i) =? N.of_nat r + 1) with false by lia. done.
    Qed.

    Lemma in_order_view k : (j < k <= length ems)%nat → ∃ g q go,
      st k = mk_cgka P (Some g) js false ∧
      owner_run P (new_owner P cid0 s0) (take q os) = (mk_cgka P (Some go) s0 true, take k ems) ∧
      ((∀ i, (j < i < k)%nat → ¬ removes P ems i slot) → same_view P g go ∧ g_epoch P g = N.of_nat k).
    Proof using Hj Hw T.
      intros Hk. destruct (st_ok k Hk) as (g & E & HS).
      destruct (ot_prefix _ _ _ _ _ T k) as (q & go & rest & Hq & EW & ER); [lia|]. exists g, q, go. split; [done|]. split; [done|].
      intros Hno. destruct HS as [HA|(r & em' & Hr & Er & Hrm & _)]; [|exfalso; apply (Hno r Hr); by exists em'].
      split; [|apply alive_epoch; [lia|done]]. destruct HA as (Hg & _).
      destruct (ot_world _ _ _ _ _ T k) as (go' & rest' & t & sec & h & E' & HV & _); [lia|].
      rewrite EW in E'. injection E' as <- <-. rewrite EW in Hg. cbn [tail] in Hg.
      destruct HV as (_ & Ha & _). rewrite Forall_forall in Ha.
      destruct (Ha g) as (? & ? & ? & ?); [rewrite EW; by right|]. destruct (Ha go) as (? & ? & ? & ?); [rewrite EW; by left|].
      split_and!; congruence.
    Qed.
  End Member.
End Proofs.
