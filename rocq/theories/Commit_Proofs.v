(** Proofs for C57: commits that name only slots of the tree are processed without a panic. *)
From Coq Require Import ZifyBool ZifyNat ZifyN.
From stdpp Require Import prelude gmap.
From Verif Require Import Bytes Tree_Model TreeMath_Proofs TreePath_Proofs Tree_Proofs GroupSession_Model Commit_Spec.
Local Open Scope N_scope.

Section Commit.
  Context (P : prims).
  Notation tree := (list (node (pub P))).
  Notation sized := (sized P).

  Lemma sized_width n t : sized n t → N.of_nat (length t) = node_width n.
  Proof. intros [H1 H2]. rewrite node_width_pos by done. lia. Qed.
  Lemma sized_num n t : sized n t → num_leaves P t = n.
  Proof. intros H. apply num_leaves_len; [apply H|by apply sized_width]. Qed.
  Lemma sized_len n t t' : length t' = length t → sized n t → sized n t'.
  Proof. intros E [H1 H2]. split; [done|]. by rewrite E. Qed.
  Lemma sized_get n t x : sized n t → x < node_width n → ∃ nd, get P t x = Some nd.
  Proof. intros H Hx. apply sized_width in H. unfold get. apply lookup_lt_is_Some_2. lia. Qed.

  Lemma set_sized n t x nd : sized n t → x < node_width n → ∃ t', set_node P t x nd = Some t' ∧ sized n t'.
  Proof.
    intros H Hx. unfold set_node. rewrite <- (sized_width n t H) in Hx. destruct (N.to_nat x <? length t)%nat eqn:E; [|lia].
    eexists. split; [done|]. apply (sized_len _ t); [by rewrite insert_length|done].
  Qed.
  Lemma note_sized n i dp : (∀ x, x ∈ dp → x < node_width n) → ∀ t, sized n t →
    ∃ t', note_unmerged P t i dp = Some t' ∧ sized n t'.
  Proof.
    induction dp as [|x dp IH]; intros Hd t Ht; cbn [note_unmerged]; [by exists t|].
    assert (Hx : x < node_width n) by (apply Hd; by left). destruct (sized_get n t x Ht Hx) as [nd ->].
    destruct (set_sized n t x (add_unmerged P i nd) Ht Hx) as (t' & -> & Ht'). apply IH; [|done]. intros y Hy. apply Hd. by right.
  Qed.
  Lemma blank_sized n dp : (∀ x, x ∈ dp → x < node_width n) → ∀ t, sized n t →
    ∃ t', blank_all P t dp = Some t' ∧ sized n t'.
  Proof.
    induction dp as [|x dp IH]; intros Hd t Ht; cbn [blank_all]; [by exists t|].
    assert (Hx : x < node_width n) by (apply Hd; by left).
    destruct (set_sized n t x Blank Ht Hx) as (t' & -> & Ht'). apply IH; [|done]. intros y Hy. apply Hd. by right.
  Qed.
  Lemma install_sized n l : (∀ x, x ∈ l.*1 → x < node_width n) → ∀ t, sized n t →
    ∃ t', install_path P t l = Some t' ∧ sized n t'.
  Proof.
    induction l as [|[x pn] l IH]; intros Hd t Ht; cbn [install_path]; [by exists t|].
    assert (Hx : x < node_width n) by (apply Hd; by left).
    destruct (set_sized n t x (Parent (pn_pub pn) []) Ht Hx) as (t' & -> & Ht'). apply IH; [|done]. intros y Hy. apply Hd. by right.
  Qed.

  Lemma dp_range n i : i < n → ∃ dp cp, direct_path i n = Some dp ∧ copath i n = Some cp ∧ length dp = length cp ∧
    (∀ x, x ∈ dp → x < node_width n) ∧ (∀ x, x ∈ cp → x < node_width n).
  Proof.
    intros Hi. destruct (paths_spec n i Hi) as (dp & cp & H1 & H2 & H3). exists dp, cp.
    split; [done|]. split; [done|]. split; [by eapply climbs_length|]. split.
    - intros x Hx. by apply (climbs_elem _ _ _ _ _ _ Hi H3) in Hx as (_ & ? & _).
    - intros x [k Hk]%elem_of_list_lookup. by apply (climbs_sibling_in _ _ _ _ _ _ _ H3) in Hk as [? _].
  Qed.
  Lemma leaf_range i n : i < n → leaf_to_node i < node_width n.
  Proof. intros Hi. rewrite node_width_pos by lia. unfold leaf_to_node. lia. Qed.

  Lemma add_sized n t i l : sized n t → ∃ t', add_leaf_at P t i l = Some t' ∧ sized (N.max n (i + 1)) t'.
  Proof.
    intros Ht. unfold add_leaf_at. set (t1 := t ++ _).
    assert (H1 : sized (N.max n (i + 1)) t1).
    { destruct Ht as [Hn Hl]. split; [lia|]. unfold t1. rewrite app_length, replicate_length, node_width_pos by lia. lia. }
    destruct (set_sized _ t1 (leaf_to_node i) (Leaf (mk_leaf (l_cid l) (l_pub l) i)) H1) as (t2 & -> & H2); [apply leaf_range; lia|].
    rewrite (sized_num _ _ H2). destruct (dp_range (N.max n (i + 1)) i) as (dp & cp & -> & _ & _ & Hd & _); [lia|].
    by apply note_sized.
  Qed.
  Lemma remove_sized n t i : sized n t → i < n → ∃ t', remove_leaf P t i = Some t' ∧ sized n t'.
  Proof.
    intros Ht Hi. unfold remove_leaf. destruct (set_sized n t (leaf_to_node i) Blank Ht) as (t1 & -> & H1); [by apply leaf_range|].
    rewrite (sized_num _ _ Ht). destruct (dp_range n i Hi) as (dp & cp & -> & _ & _ & Hd & _). by apply blank_sized.
  Qed.
  Lemma proposals_sized ps : ∀ n m t, sized n t → slots_after n ps = Some m →
    ∃ t', apply_proposals P t ps = Some t' ∧ sized m t'.
  Proof.
    induction ps as [|[l i|i] ps IH]; intros n m t Ht Hs; cbn [slots_after apply_proposals apply_proposal] in *.
    - injection Hs as <-. by exists t.
    - destruct (add_sized n t i l Ht) as (t' & -> & Ht'). by eapply IH.
    - destruct (i <? n) eqn:Ei; [|done]. destruct (remove_sized n t i Ht) as (t' & -> & Ht'); [lia|]. by eapply IH.
  Qed.

  Lemma is_leaf_level x : is_leaf x = true ↔ level x = 0.
  Proof. destruct (nd_exists x) as [j E]. revert E. generalize (level x) at 1 as k. intros k ->. rewrite is_leaf_nd, level_nd. lia. Qed.
  Lemma resolution_total n fuel : ∀ t x, sized n t → x < node_width n → (N.to_nat (level x) ≤ fuel)%nat →
    ∃ rs, resolution_fuel P fuel t x = Some rs.
  Proof.
    induction fuel as [|fuel IH]; intros t x Ht Hx Hl; cbn [resolution_fuel];
      destruct (sized_get n t x Ht Hx) as [[l|pk um|] ->]; try by eexists.
    - replace (is_leaf x) with true by (symmetry; apply is_leaf_level; lia). by eexists.
    - destruct (is_leaf x) eqn:El; [by eexists|].
      assert (Hlv : 0 < level x) by (pose proof (is_leaf_level x); destruct (level x) eqn:E0; [|lia]; rewrite (proj2 H) in El; done).
      destruct (children n x Hx Hlv) as (H1 & H2 & r & Hr & Hrw & Hrl & _).
      destruct (IH t (left x) Ht H2) as [a ->]; [lia|]. rewrite (sized_num _ _ Ht), Hr.
      destruct (IH t r Ht Hrw) as [b ->]; [lia|]. by eexists.
  Qed.
  Lemma try_open_total n t nodes own dp cp : sized n t → (∀ x, x ∈ cp → x < node_width n) →
    ∀ d, (d + length cp = length dp)%nat → try_open P t nodes own dp d cp ≠ Panic.
  Proof.
    intros Ht. induction cp as [|c cp IH]; intros Hc d Hd; cbn [try_open]; [done|].
    destruct (resolution_total n (N.to_nat (level c)) t c Ht) as [rs Hrs]; [apply Hc; by left|done|].
    unfold resolution. rewrite Hrs. destruct (find_held P own 0 rs) as [[ri s]|].
    - destruct (_ ≫= _); [|done]. destruct (hopen P s _) as [[|ps [|]]|]; try done.
      destruct (dp !! d) eqn:E; [by destruct (climb_secrets _ _ _ _)|]. apply lookup_ge_None in E. cbn in Hd. lia.
    - apply IH; [|cbn in Hd; lia]. intros x Hx. apply Hc. by right.
  Qed.
  Lemma apply_path_total n t u own : sized n t → up_leaf u < n →
    ∃ t' r, apply_update_path P t u own = (t', r) ∧ r ≠ Panic ∧ sized n t'.
  Proof.
    intros Ht Hu. unfold apply_update_path. rewrite (sized_num _ _ Ht).
    destruct (dp_range n (up_leaf u) Hu) as (dp & cp & -> & -> & Hl & Hd & Hc).
    destruct (length dp =? length (up_nodes u))%nat eqn:El; cbn [negb]; [|by eexists _, _].
    destruct (sized_get n t (leaf_to_node (up_leaf u)) Ht) as [nd ->]; [by apply leaf_range|].
    destruct nd as [l| |]; [|by eexists _, _|by eexists _, _].
    destruct (set_sized n t (leaf_to_node (up_leaf u)) (Leaf (mk_leaf (l_cid l) (up_leaf_pub u) (l_index l))) Ht) as (t1 & -> & H1);
      [by apply leaf_range|].
    destruct (install_sized n (zip dp (up_nodes u))) with (t := t1) as (t2 & -> & H2); [|done|].
    { intros x Hx. apply Hd. by rewrite fst_zip in Hx by lia. }
    eexists _, _. split; [reflexivity|]. split; [|done]. eapply try_open_total; [done|done|]. lia.
  Qed.
  Lemma process_commit_total n g c : sized n (g_tree P g) → within n c →
    (process_commit P g c).2 ≠ Panic ∧ ∃ m, sized m (g_tree P (process_commit P g c).1).
  Proof.
    intros Ht (m & Hm & Hu). unfold process_commit. destruct (proposals_sized _ _ _ _ Ht Hm) as (t1 & -> & H1).
    destruct (apply_path_total m t1 (cm_path c) (g_own P g) H1 Hu) as (t2 & r & -> & Hr & H2).
    destruct r as [[root learned]| |]; [| |done]; (split; [done|]; exists m; exact H2).
  Qed.
  Lemma s_process_total c cm e : well_sized P c → names_slots P c cm →
    (s_process_commit P c cm e).2 ≠ Panic ∧ well_sized P (s_process_commit P c cm e).1.
  Proof.
    intros Hw Hn. unfold s_process_commit. destruct (c_group P c) as [g|] eqn:Eg; [|split; [done|exact Hw]].
    destruct (e =? g_epoch P g + 1); cbn [negb]; [|split; [done|exact Hw]].
    destruct (Hw g Eg) as [n Ht]. specialize (Hn g Eg). rewrite (sized_num _ _ Ht) in Hn.
    destruct (process_commit_total n g cm Ht Hn) as [H1 H2]. destruct (process_commit P g cm) as [g' r]. cbn [fst snd] in *.
    split; [done|]. intros g0 [= <-]. done.
  Qed.
  Lemma process_all_total l : ∀ c, well_sized P c → all_name_slots P c l → Panic ∉ (process_all P c l).2.
  Proof.
    induction l as [|[cm e] l IH]; intros c Hw Hn; cbn [process_all]; [by apply not_elem_of_nil|]. destruct Hn as [H1 H2].
    destruct (s_process_total c cm e Hw H1) as [Hp Hw']. destruct (s_process_commit P c cm e) as [c1 r]. cbn [fst snd] in *.
    specialize (IH c1 Hw' H2). destruct (process_all P c1 l) as [c2 rs]. cbn [snd] in *. apply not_elem_of_cons. done.
  Qed.
  (** whom it applies to *)
  Lemma founder_sized cid s : well_sized P (new_owner P cid s).
  Proof. intros g [= <-]. exists 1. split; [lia|]. done. Qed.
  Lemma joiner_sized c w n : well_sized P c → sized n (w_tree P w) → well_sized P (s_join P c w).1.
  Proof.
    intros Hc Hw. unfold s_join, join_from_welcome. destruct (hopen P (c_leaf_secret P c) _) as [[|a [|b [|]]]|]; try exact Hc.
    destruct (direct_path _ _); [|exact Hc]. destruct (position _ _); [|exact Hc].
    destruct (climb_secrets _ _ _ _) as [root own]. intros g [= <-]. by exists n.
  Qed.
End Commit.
