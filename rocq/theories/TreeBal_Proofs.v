(** The tree arithmetic against the left-balanced binary tree. *)
From Coq Require Import ZifyBool ZifyNat ZifyN.
From stdpp Require Import prelude gmap sorting.
From Verif Require Import Tree_Model Tree_Spec TreeMath_Proofs TreePath_Proofs Tree_Proofs.
Local Open Scope N_scope.

Lemma LB_pos a n t : LB a n t → 0 < n.
Proof. induction 1; lia. Qed.

Lemma LB_leaves a n t : LB a n t → ∀ u, u ∈ leaves t ↔ a <= u ∧ u < a + n.
Proof.
  induction 1 as [a|a n k l r H1 H2 Hl IHl Hr IHr]; intros u; cbn [leaves].
  - rewrite elem_of_list_singleton. lia.
  - rewrite elem_of_app, IHl, IHr. lia.
Qed.

Lemma LB_NoDup a n t : LB a n t → NoDup (leaves t).
Proof.
  induction 1 as [a|a n k l r H1 H2 Hl IHl Hr IHr]; cbn [leaves].
  - apply NoDup_singleton.
  - apply NoDup_app. split_and!; [done| |done]. intros u Hu Hu'.
    apply (LB_leaves _ _ _ Hl) in Hu. apply (LB_leaves _ _ _ Hr) in Hu'. lia.
Qed.

Lemma inorder_total t : ∃ ls, inorder t ls.
Proof. induction t as [i|l [ls Hl] r [rs Hr]]; eexists; econstructor; eauto. Qed.
Lemma inorder_func t ls ls' : inorder t ls → inorder t ls' → ls = ls'.
Proof.
  intros H. revert ls'. induction H as [|l r ls rs Hl IHl Hr IHr]; intros ls' H'; inversion H'; subst; [done|].
  rewrite (IHl _ ltac:(eassumption)), (IHr _ ltac:(eassumption)). done.
Qed.
Lemma inorder_length a n t ls : LB a n t → inorder t ls → N.of_nat (length ls) = 2 * n - 1.
Proof.
  intros H. revert ls. induction H as [a|a n k l r H1 H2 Hl IHl Hr IHr]; intros ls Hi; inversion Hi; subst; [done|].
  rewrite app_length. cbn [length].
  match goal with X : inorder l ?a, Y : inorder r ?b |- _ => pose proof (IHl a X); pose proof (IHr b Y) end.
  pose proof (LB_pos _ _ _ Hl). lia.
Qed.
Lemma inorder_subtree t ls s : inorder t ls → s ∈ ls ↔ subtree s t.
Proof.
  intros H. revert s. induction H as [|l r ls rs Hl IHl Hr IHr]; intros s.
  - rewrite elem_of_list_singleton. split; [intros ->; constructor|]. by inversion 1.
  - rewrite elem_of_app, elem_of_cons, IHl, IHr. split.
    + intros [?|[->|?]]; [by constructor 2|constructor|by constructor 3].
    + inversion 1; subst; auto.
Qed.

(** where the nodes of a left-balanced part stand, and what is below them *)
Lemma LB_index a n t q ls : LB a n t → (2 ^ q | a) → n <= 2 ^ q → inorder t ls →
  ∀ p s, ls !! p = Some s →
    (∀ u, below (2 * a + N.of_nat p) u → a <= u ∧ u < a + 2 ^ q) ∧
    (∀ u, a <= u → u < a + n → u ∈ leaves s ↔ below (2 * a + N.of_nat p) u) ∧
    (level (2 * a + N.of_nat p) = 0 ↔ ∃ i, s = BLeaf i).
Proof.
  intros H. revert q ls. induction H as [a|a n k l r H1 H2 Hl IHl Hr IHr]; intros q ls Hq Hn Hi p s Hp;
    inversion Hi as [i Ei|? ? ll rl Il Ir]; subst.
  - destruct p as [|p]; cbn in Hp; [|done]. injection Hp as <-.
    replace (2 * a + N.of_nat 0) with (leaf_to_node a) by (unfold leaf_to_node; lia). pose proof (pow_pos q). split_and!.
    + intros u ->%below_leaf_eq. lia.
    + intros u Hu1 Hu2. assert (u = a) as -> by lia. cbn. split; [intros _; apply below_leaf_refl|intros _; by left].
    + split; [eauto|]. intros _. apply level_leaf.
  - assert (Hkq : k + 1 <= q).
    { apply N.lt_succ_r. destruct (N.le_gt_cases (k + 1) q); [lia|]. exfalso.
      assert (q <= k) by lia. pose proof (N.pow_le_mono_r 2 q k ltac:(lia) ltac:(lia)). lia. }
    assert (Hd1 : (2 ^ (k + 1) | a)).
    { eapply N.divide_trans; [|exact Hq]. exists (2 ^ (q - (k + 1))). rewrite <- N.pow_add_r. f_equal. lia. }
    assert (Hd0 : (2 ^ k | a)).
    { eapply N.divide_trans; [|exact Hd1]. exists 2. rewrite pow_S. done. }
    assert (Hd0' : (2 ^ k | a + 2 ^ k)) by (apply N.divide_add_r; [done|apply N.divide_refl]).
    assert (Hpq : 2 ^ (k + 1) <= 2 ^ q) by (apply N.pow_le_mono_r; lia).
    pose proof (pow_S k) as HpS. pose proof (pow_pos k) as Hpp.
    pose proof (inorder_length _ _ _ _ Hl Il) as Ll. pose proof (inorder_length _ _ _ _ Hr Ir) as Lr.
    apply lookup_app_Some in Hp as [Hp|[Hge Hp]].
    + (* left *)
      destruct (IHl k ll Hd0 ltac:(lia) Il p s Hp) as (J1 & J2 & J3). split_and!.
      * intros u Hu. apply J1 in Hu. lia.
      * intros u Hu1 Hu2. destruct (N.lt_ge_cases u (a + 2 ^ k)) as [Hc|Hc]; [by apply J2|].
        split; [|intros Hb; apply J1 in Hb; lia]. intros Hs. exfalso.
        assert (Hsub : subtree s l) by (apply (inorder_subtree l ll); [done|by eapply elem_of_list_lookup_2]).
        assert (u ∈ leaves l) as Hul.
        { clear -Hs Hsub. induction Hsub; cbn [leaves]; [done| |]; apply elem_of_app; auto. }
        apply (LB_leaves _ _ _ Hl) in Hul. lia.
      * exact J3.
    + destruct (p - length ll)%nat as [|p'] eqn:Ep; cbn in Hp.
      * (* the node itself *)
        injection Hp as <-. destruct Hd1 as [j Hj].
        assert (Ex : 2 * a + N.of_nat p = nd (k + 1) j).
        { Transparent nd. unfold nd. Opaque nd. rewrite (pow_S (k + 1)). rewrite Hj. lia. }
        rewrite Ex. split_and!.
        -- intros u Hu. apply below_nd_range in Hu. lia.
        -- intros u Hu1 Hu2. split; [|intros _; apply (LB_leaves a n); [by econstructor|lia]].
           intros _. apply below_nd_range. lia.
        -- rewrite level_nd. split; [lia|]. intros [i [=]].
      * (* right *)
        destruct (IHr k rl Hd0' ltac:(lia) Ir p' s Hp) as (J1 & J2 & J3).
        replace (2 * (a + 2 ^ k) + N.of_nat p') with (2 * a + N.of_nat p) in J1, J2, J3 by lia. split_and!.
        -- intros u Hu. apply J1 in Hu. lia.
        -- intros u Hu1 Hu2. destruct (N.lt_ge_cases u (a + 2 ^ k)) as [Hc|Hc]; [|apply J2; lia].
           split; [|intros Hb; apply J1 in Hb; lia]. intros Hs. exfalso.
           assert (Hsub : subtree s r) by (apply (inorder_subtree r rl); [done|by eapply elem_of_list_lookup_2]).
           assert (u ∈ leaves r) as Hul.
           { clear -Hs Hsub. induction Hsub; cbn [leaves]; [done| |]; apply elem_of_app; auto. }
           apply (LB_leaves _ _ _ Hr) in Hul. lia.
        -- exact J3.
Qed.

Lemma subtree_leaves s t u : subtree s t → u ∈ leaves s → u ∈ leaves t.
Proof. intros H Hu. induction H; cbn [leaves]; [done| |]; apply elem_of_app; auto. Qed.
Lemma subtree_NoDup s t : subtree s t → NoDup (leaves t) → NoDup (leaves s).
Proof. induction 1 as [|l r Hs IH|l r Hs IH]; cbn [leaves]; [done| |]; intros (? & _ & ?)%NoDup_app; auto. Qed.
Lemma leaves_inhabited t : ∃ u, u ∈ leaves t.
Proof. induction t as [i|l [u Hu] r _]; cbn [leaves]; [exists i; by left|]. exists u. apply elem_of_app. by left. Qed.
Lemma subtree_trans s r t : subtree s r → subtree r t → subtree s t.
Proof. intros H1 H2. induction H2; [done|by constructor 2|by constructor 3]. Qed.

(** a part of the tree is determined by its slots *)
Lemma subtree_unique t s s' : NoDup (leaves t) → subtree s t → subtree s' t →
  (∀ u, u ∈ leaves s ↔ u ∈ leaves s') → s = s'.
Proof.
  intros Hnd. revert s s'. induction t as [i|l IHl r IHr]; intros s s' Hs Hs' E.
  - inversion Hs; inversion Hs'; congruence.
  - cbn [leaves] in Hnd. apply NoDup_app in Hnd as (N1 & N2 & N3).
    assert (Hwhole : ∀ z, subtree z l ∨ subtree z r → ¬ (∀ u, u ∈ leaves (BNode l r) ↔ u ∈ leaves z)).
    { intros z [Hz|Hz] Ez.
      - destruct (leaves_inhabited r) as [u Hu]. apply (N2 u); [|done]. eapply subtree_leaves; [exact Hz|].
        apply Ez. cbn [leaves]. apply elem_of_app. by right.
      - destruct (leaves_inhabited l) as [u Hu]. apply (N2 u); [done|]. eapply subtree_leaves; [exact Hz|].
        apply Ez. cbn [leaves]. apply elem_of_app. by left. }
    inversion Hs as [|? ? Hl1|? ? Hr1]; inversion Hs' as [|? ? Hl2|? ? Hr2]; subst; try done.
    + exfalso. eapply Hwhole; [left; exact Hl2|done].
    + exfalso. eapply Hwhole; [right; exact Hr2|done].
    + exfalso. eapply Hwhole; [left; exact Hl1|]. intros u. symmetry. apply E.
    + by apply IHl.
    + exfalso. destruct (leaves_inhabited s) as [u Hu]. apply (N2 u); [by eapply subtree_leaves|].
      eapply subtree_leaves; [exact Hr2|]. by apply E.
    + exfalso. eapply Hwhole; [right; exact Hr1|]. intros u. symmetry. apply E.
    + exfalso. destruct (leaves_inhabited s) as [u Hu]. apply (N2 u); [|by eapply subtree_leaves].
      eapply subtree_leaves; [exact Hl2|]. by apply E.
    + by apply IHr.
Qed.

Section Whole.
  Context (n : N) (t : bt) (Ht : LB 0 n t).

  Lemma numbered_facts s x : numbered t s x →
    subtree s t ∧ x < node_width n ∧ (∀ u, u < n → u ∈ leaves s ↔ below x u) ∧ (level x = 0 ↔ ∃ i, s = BLeaf i).
  Proof using Ht.
    intros (ls & Hi & Hx). pose proof (LB_pos _ _ _ Ht) as Hn.
    destruct (LB_index 0 n t n ls Ht (N.divide_0_r _)) with (p := N.to_nat x) (s := s) as (J1 & J2 & J3); [|done|done|].
    { apply N.lt_le_incl. apply N.pow_gt_lin_r. lia. }
    rewrite N2Nat.id, N.mul_0_r, N.add_0_l in *. split_and!.
    - apply (inorder_subtree t ls); [done|]. by eapply elem_of_list_lookup_2.
    - apply lookup_lt_Some in Hx. pose proof (inorder_length _ _ _ _ Ht Hi). rewrite node_width_pos by done. lia.
    - intros u Hu. apply J2; lia.
    - done.
  Qed.
  Lemma number_exists x : x < node_width n → ∃ s, numbered t s x.
  Proof using Ht.
    intros Hx. destruct (inorder_total t) as [ls Hi]. pose proof (inorder_length _ _ _ _ Ht Hi).
    pose proof (LB_pos _ _ _ Ht) as Hn. rewrite node_width_pos in Hx by done.
    destruct (lookup_lt_is_Some_2 ls (N.to_nat x)) as [s Hs]; [lia|]. by exists s, ls.
  Qed.
  Lemma subtree_number s : subtree s t → ∃ x, numbered t s x.
  Proof using Ht.
    intros Hs. destruct (inorder_total t) as [ls Hi]. apply (inorder_subtree t ls) in Hs; [|done].
    apply elem_of_list_lookup in Hs as [p Hp]. exists (N.of_nat p), ls. by rewrite Nat2N.id.
  Qed.
  Lemma subtree_in_range s u : subtree s t → u ∈ leaves s → u < n.
  Proof using Ht. intros Hs Hu. eapply subtree_leaves in Hu; [|exact Hs]. apply (LB_leaves _ _ _ Ht) in Hu. lia. Qed.
  Lemma same_below_same s s' x : subtree s t → numbered t s' x →
    (∀ u, u < n → u ∈ leaves s ↔ below x u) → s = s'.
  Proof using Ht.
    intros Hs Hx E. destruct (numbered_facts s' x Hx) as (F1 & F2 & F3 & F4).
    eapply subtree_unique; [by eapply LB_NoDup|done|done|]. intros u. split.
    - intros Hu. pose proof (subtree_in_range s u Hs Hu) as Hun. apply F3; [done|]. by apply E.
    - intros Hu. pose proof (subtree_in_range s' u F1 Hu) as Hun. apply E; [done|]. by apply F3.
  Qed.
End Whole.

(** ** the ancestors of a slot *)
Lemma up_exists t i : i ∈ leaves t → ∃ p, up t i p.
Proof.
  induction t as [k|l IHl r IHr]; cbn [leaves].
  - intros ->%elem_of_list_singleton. exists []. constructor.
  - intros [Hi|Hi]%elem_of_app.
    + destruct (IHl Hi) as [p Hp]. eexists. by constructor.
    + destruct (IHr Hi) as [p Hp]. eexists. by constructor.
Qed.
Lemma up_in t i p : up t i p → i ∈ leaves t.
Proof. induction 1; cbn [leaves]; [by left| |]; apply elem_of_app; auto. Qed.

Lemma up_top t i p q d : up t i p → d = length p →
  match d with O => t = BLeaf i | S d' => ∃ c, (p ++ [q]) !! d' = Some (t, c) end.
Proof.
  intros Hu ->. inversion Hu as [|l r ? p' Hu'|l r ? p' Hu']; subst; [done| |];
    rewrite app_length; cbn [length]; rewrite Nat.add_1_r; eexists;
    (apply lookup_app_l_Some; rewrite lookup_app_r by lia; by rewrite Nat.sub_diag).
Qed.

(** facts about each entry (ancestor, other child) *)
Lemma up_entry t i p d s c : up t i p → p !! d = Some (s, c) →
  subtree s t ∧ subtree c t ∧ (∃ l r, s = BNode l r) ∧ i ∈ leaves s ∧
  ∃ b, (s = BNode b c ∨ s = BNode c b) ∧ i ∈ leaves b ∧
       (match d with O => b = BLeaf i | S d' => ∃ c', p !! d' = Some (b, c') end).
Proof.
  intros H. revert d s c. induction H as [i|l r i p Hu IH|l r i p Hu IH]; intros d s c Hd; [done| |].
  all: apply lookup_app_Some in Hd as [Hd|[Hge Hd]].
  all: try (destruct (IH d s c Hd) as (K1 & K2 & K3 & K4 & b & K5 & K6 & K7);
    split_and!; [(by constructor 2) || (by constructor 3)|(by constructor 2) || (by constructor 3)|done|done|];
    exists b; split_and!; [done|done|]; destruct d as [|d']; [done|]; destruct K7 as [c' K7]; exists c';
    by apply lookup_app_l_Some).
  all: destruct (d - length p)%nat as [|q] eqn:Eq; cbn in Hd; [|done]; injection Hd as <- <-;
    assert (Hdp : d = length p) by lia; pose proof (up_in _ _ _ Hu) as Hin; split_and!;
    [constructor|(apply sub_right; constructor) || (apply sub_left; constructor)|eauto|cbn [leaves]; apply elem_of_app; auto|].
  - exists l. split_and!; [by left|done|]. exact (up_top _ _ _ _ _ Hu Hdp).
  - exists r. split_and!; [by right|done|]. exact (up_top _ _ _ _ _ Hu Hdp).
Qed.

(** every inner part of the tree that contains the slot is listed *)
Lemma up_complete t i p l r : NoDup (leaves t) → up t i p → subtree (BNode l r) t → i ∈ leaves (BNode l r) →
  BNode l r ∈ fst <$> p.
Proof.
  intros Hnd H. induction H as [i|l0 r0 i p Hu IH|l0 r0 i p Hu IH]; intros Hs Hi; [by inversion Hs| |];
    cbn [leaves] in Hnd; apply NoDup_app in Hnd as (N1 & N2 & N3); rewrite fmap_app; apply elem_of_app;
    inversion Hs as [E|? ? Hl E|? ? Hr E]; subst.
  - right. by left.
  - left. by apply IH.
  - exfalso. apply (N2 i); [by eapply up_in|by eapply subtree_leaves].
  - right. by left.
  - exfalso. apply (N2 i); [by eapply subtree_leaves|by eapply up_in].
  - left. by apply IH.
Qed.

Lemma climbs_sorted n i k dp cp : climbs n i k dp cp → StronglySorted (λ x y, level x < level y) dp.
Proof.
  induction 1 as [|k k' y dp cp H1 H2 H3 H4 H5 H6 H7 H8 H9 IH]; constructor; [done|].
  apply Forall_forall. intros z Hz. apply (climbs_level_gt n i k' dp cp) in Hz; [|done]. rewrite level_anc. lia.
Qed.

Lemma ex_list {A B} (R : A → B → Prop) (l : list A) : (∀ a, a ∈ l → ∃ b, R a b) → ∃ l', Forall2 R l l'.
Proof.
  induction l as [|a l IH]; intros E; [exists []; constructor|].
  destruct (E a) as [b Hb]; [by left|]. destruct IH as [l' Hl']; [intros; apply E; by right|]. exists (b :: l'). by constructor.
Qed.

Lemma StronglySorted_step (R : N → N → Prop) `{!Transitive R} l :
  (∀ d x y, l !! d = Some x → l !! S d = Some y → R x y) → StronglySorted R l.
Proof.
  intros E. apply Sorted_StronglySorted; [done|]. induction l as [|a l IH]; constructor.
  - apply IH. intros d x y Hx Hy. by apply (E (S d)).
  - destruct l as [|b l]; constructor. by apply (E O).
Qed.

Lemma tree_paths n t i : LB 0 n t → i < n →
  ∃ p dp cp, up t i p ∧ direct_path i n = Some dp ∧ copath i n = Some cp ∧
    Forall2 (numbered t) p.*1 dp ∧ Forall2 (numbered t) p.*2 cp.
Proof.
  intros Ht Hi. pose proof (LB_NoDup _ _ _ Ht) as HN.
  destruct (up_exists t i) as [p Hp]. { apply (LB_leaves _ _ _ Ht). lia. }
  destruct (paths_spec n i Hi) as (dp & cp & Edp & Ecp & Hc).
  exists p, dp, cp. split; [done|]. split; [done|]. split; [done|].
  pose proof (climbs_length _ _ _ _ _ Hc) as Hlen.
  assert (Hent : ∀ d s c, p !! d = Some (s, c) → _) by (intros d s c; exact (up_entry t i p d s c Hp)).
  destruct (ex_list (numbered t) p.*1) as [xs Hxs].
  { intros s ((s' & c) & -> & Hin)%elem_of_list_fmap. apply elem_of_list_lookup in Hin as [d Hd].
    destruct (Hent _ _ _ Hd) as (K1 & _). exact (subtree_number n t Ht _ K1). }
  assert (Hat : ∀ d x, xs !! d = Some x → ∃ s c, p !! d = Some (s, c) ∧ numbered t s x).
  { intros d x Hx. destruct (Forall2_lookup_r _ _ _ _ _ Hxs Hx) as (s & Hs & Hn).
    rewrite list_lookup_fmap in Hs. destruct (p !! d) as [[s' c]|]; [|done]. injection Hs as <-. eauto. }
  (* neighbours are nested *)
  assert (Hless : ∀ s c b x z, subtree s t → numbered t s x → numbered t b z → (s = BNode b c ∨ s = BNode c b) →
            i ∈ leaves b → level z < level x).
  { intros s c b x z Hs Hx Hz E Hib.
    destruct (numbered_facts n t Ht _ _ Hx) as (F1 & F2 & F3 & F4). destruct (numbered_facts n t Ht _ _ Hz) as (G1 & G2 & G3 & G4).
    destruct (N.lt_ge_cases (level z) (level x)) as [?|Hge]; [done|exfalso].
    assert (Hsub : subtree c t).
    { eapply subtree_trans; [|exact Hs]. destruct E as [->| ->]; [apply sub_right; apply sub_here|apply sub_left; apply sub_here]. }
    destruct (leaves_inhabited c) as [u Hu]. pose proof (subtree_in_range n t Ht _ _ Hsub Hu) as Hun.
    assert (Hux : below x u). { apply F3; [done|]. destruct E as [->| ->]; cbn [leaves]; apply elem_of_app; auto. }
    assert (Hix : below x i). { apply F3; [done|]. destruct E as [->| ->]; cbn [leaves]; apply elem_of_app; auto. }
    assert (Hiz : below z i) by (by apply G3).
    pose proof (below_nested x z i Hix Hiz Hge u Hux) as Huz. apply G3 in Huz; [|done].
    pose proof (subtree_NoDup s t Hs HN) as HN'.
    destruct E as [->| ->]; cbn [leaves] in HN'; apply NoDup_app in HN' as (_ & HN' & _); by apply (HN' u). }
  assert (xs = dp) as ->.
  { assert (Hanti : AntiSymm (=) (λ x y, level x < level y)) by (intros x y Hxy Hyx; lia).
    apply (StronglySorted_unique (λ x y, level x < level y)).
    - apply StronglySorted_step. { intros x y z; lia. }
      intros d x y Hx Hy. destruct (Hat _ _ Hx) as (s & c & Hs & Hsx). destruct (Hat _ _ Hy) as (s' & c' & Hs' & Hsy).
      destruct (Hent _ _ _ Hs') as (K1 & K2 & K3 & K4 & b & K5 & K6 & (c2 & K7)).
      assert (b = s) as -> by congruence. eapply (Hless s' c' s); eauto.
    - by eapply climbs_sorted.
    - apply NoDup_Permutation.
      + clear -Hat Hent Hless Ht Hp. apply NoDup_alt.
        assert (HS : StronglySorted (λ x y, level x < level y) xs).
        { apply StronglySorted_step. { intros x y z; lia. }
          intros d x y Hx Hy. destruct (Hat _ _ Hx) as (s & c & Hs & Hsx). destruct (Hat _ _ Hy) as (s' & c' & Hs' & Hsy).
          destruct (Hent _ _ _ Hs') as (K1 & K2 & K3 & K4 & b & K5 & K6 & (c2 & K7)).
          assert (b = s) as -> by congruence. eapply (Hless s' c' s); eauto. }
        clear -HS. apply NoDup_alt. induction HS as [|a l HS IH HF]; constructor; [|done].
        rewrite Forall_forall in HF. intros Ha. specialize (HF a Ha). lia.
      + by eapply climbs_NoDup.
      + intros x. rewrite (climbs_elem n i 0 dp cp x Hi Hc). split.
        * intros Hx. apply elem_of_list_lookup in Hx as [d Hx]. destruct (Hat _ _ Hx) as (s & c & Hs & Hsx).
          destruct (Hent _ _ _ Hs) as (K1 & K2 & (l & r & ->) & K4 & _).
          destruct (numbered_facts n t Ht _ _ Hsx) as (F1 & F2 & F3 & F4). split_and!; [by apply F3|done|].
          destruct (N.eq_dec (level x) 0) as [E|]; [|lia]. apply F4 in E as [k [=]].
        * intros (Hb & Hw & Hl). destruct (number_exists n t Ht x Hw) as [s Hs].
          destruct (numbered_facts n t Ht _ _ Hs) as (F1 & F2 & F3 & F4).
          destruct s as [k|l r]. { assert (level x = 0) by (apply F4; eauto). lia. }
          assert (Hin : BNode l r ∈ p.*1). { apply (up_complete t i); [done|done|done|]. by apply F3. }
          apply elem_of_list_lookup in Hin as [d Hd]. destruct (Forall2_lookup_l _ _ _ _ _ Hxs Hd) as (y & Hy & Hsy).
          assert (y = x) as ->; [|by eapply elem_of_list_lookup_2].
          destruct (numbered_facts n t Ht _ _ Hsy) as (G1 & G2 & G3 & G4).
          destruct (leaves_inhabited (BNode l r)) as [u Hu].
          assert (Hiu : below y i). { apply G3; [done|]. by apply F3. }
          (* same slots below; the higher of the two would have a child part with the same slots *)
          destruct Hs as (ls & Hls1 & Hls2). destruct Hsy as (ls' & Hls1' & Hls2').
          assert (ls' = ls) as -> by (by eapply inorder_func).
          clear -Hls1 Hls2 Hls2' HN. assert (NoDup ls) as Hnd.
          { clear -Hls1 HN. induction Hls1 as [|l r ls rs Hl IHl Hr IHr]; [apply NoDup_singleton|].
            cbn [leaves] in HN. apply NoDup_app in HN as (N1 & N2 & N3).
            apply NoDup_app. split_and!; [by apply IHl| |].
            - intros s Hs Hs'. apply (inorder_subtree l ls) in Hs; [|done]. apply elem_of_cons in Hs' as [->|Hs'].
              + destruct (leaves_inhabited r) as [u Hu]. apply (N2 u); [|done].
                eapply subtree_leaves; [exact Hs|]. cbn [leaves]. apply elem_of_app. by right.
              + apply (inorder_subtree r rs) in Hs'; [|done]. destruct (leaves_inhabited s) as [u Hu].
                apply (N2 u); by eapply subtree_leaves.
            - constructor; [|by apply IHr]. intros Hs'. apply (inorder_subtree r rs) in Hs'; [|done].
              destruct (leaves_inhabited l) as [u Hu]. apply (N2 u); [done|].
              eapply subtree_leaves; [exact Hs'|]. cbn [leaves]. apply elem_of_app. by left. }
          assert (N.to_nat y = N.to_nat x); [|lia]. by eapply NoDup_lookup. }
  split; [done|].
  (* the other children *)
  assert (Hpl : length p = length cp).
  { rewrite <- Hlen. rewrite <- (Forall2_length _ _ _ Hxs). by rewrite fmap_length. }
  apply Forall2_same_length_lookup_2. { by rewrite fmap_length. }
  intros d c y Hcd Hyd. rewrite list_lookup_fmap in Hcd. destruct (p !! d) as [[s c']|] eqn:Epd; [|done]. injection Hcd as ->.
  destruct (Hent _ _ _ Epd) as (K1 & K2 & K3 & K4 & b & K5 & K6 & K7).
  (* position d of the climb *)
  assert (Hpos : ∃ x prev, dp !! d = Some x ∧ (match d with O => prev = leaf_to_node i | S d' => dp !! d' = Some prev end) ∧
     y < node_width n ∧ (∀ m, m < n → below y m ↔ below x m ∧ ¬ below prev m)).
  { clear -Hc Hyd Hi. rewrite <- anc_0. revert d y Hyd. generalize 0 as k, Hc. clear Hc. intros k Hc.
    induction Hc as [|k k' y0 dp cp H1 H2 H3 H4 H5 H6 H7 H8 H9 IH]; intros d y Hy; [done|].
    destruct d as [|d]; cbn in Hy.
    - injection Hy as <-. exists (anc k' i), (anc k i). split_and!; [done|done|done|]. intros m Hm. split; [apply H7|].
      intros [Hb Hnb]. destruct (H8 m Hm Hb); done.
    - destruct (IH d y Hy) as (x & prev & J1 & J2 & J3 & J4). exists x, prev. split_and!; [done| |done|done].
      destruct d as [|d']; [by subst|done]. }
  destruct Hpos as (x & prev & Hx & Hprev & Hyw & Hy).
  assert (Hsx : numbered t s x).
  { destruct (Forall2_lookup_r _ _ _ _ _ Hxs Hx) as (s' & Hs' & Hn). rewrite list_lookup_fmap, Epd in Hs'. by injection Hs' as <-. }
  destruct (numbered_facts n t Ht _ _ Hsx) as (F1 & F2 & F3 & F4).
  assert (Hbp : ∀ m, m < n → m ∈ leaves b ↔ below prev m).
  { intros m Hm. destruct d as [|d'].
    - subst b prev. cbn. rewrite elem_of_list_singleton. split; [intros ->; apply below_leaf_refl|apply below_leaf_eq].
    - destruct K7 as [c2 K7]. destruct (Forall2_lookup_r _ _ _ _ _ Hxs Hprev) as (s' & Hs' & Hn).
      rewrite list_lookup_fmap, K7 in Hs'. injection Hs' as <-. destruct (numbered_facts n t Ht _ _ Hn) as (_ & _ & G3 & _). by apply G3. }
  destruct (number_exists n t Ht y Hyw) as [s' Hs'].
  assert (c = s') as ->; [|done]. apply (same_below_same n t Ht c s' y K2 Hs'). intros u Hu.
  rewrite (Hy u Hu), <- (F3 u Hu), <- (Hbp u Hu).
  pose proof (subtree_NoDup s t K1 HN) as HN'.
  destruct K5 as [->| ->]; cbn [leaves] in HN' |- *; apply NoDup_app in HN' as (_ & HN' & _); rewrite elem_of_app.
  - split; [intros Hc'; split; [by right|intros Hb; by eapply HN']|]. intros [[Hb|Hc'] Hnb]; [done|done].
  - split; [intros Hc'; split; [by left|intros Hb; by eapply HN']|]. intros [[Hc'|Hb] Hnb]; [done|done].
Qed.

Lemma LB_exists n : 0 < n → ∀ a, ∃ t, LB a n t.
Proof.
  induction n as [n IH] using (well_founded_induction N.lt_wf_0). intros Hn a.
  destruct (N.eq_dec n 1) as [->|H1]; [eexists; constructor|].
  assert (∃ k, 2 ^ k < n ∧ n <= 2 * 2 ^ k) as (k & Hk1 & Hk2).
  { exists (N.log2 (n - 1)). pose proof (N.log2_spec (n - 1) ltac:(lia)) as Hs. rewrite N.pow_succ_r' in Hs. lia. }
  pose proof (pow_pos k). destruct (IH (2 ^ k) Hk1 ltac:(lia) a) as [l Hl].
  destruct (IH (n - 2 ^ k) ltac:(lia) ltac:(lia) (a + 2 ^ k)) as [r Hr]. exists (BNode l r). by econstructor.
Qed.

(** the other children of a path cover every other slot exactly once *)
Lemma up_partition t i p : up t i p → NoDup (leaves t) →
  leaves t ≡ₚ i :: concat (leaves <$> p.*2).
Proof.
  induction 1 as [i|l r i p Hu IH|l r i p Hu IH]; intros HN; cbn [leaves] in *; [done| |];
    apply NoDup_app in HN as (N1 & _ & N3); rewrite !fmap_app, concat_app; cbn [fmap list_fmap concat]; rewrite app_nil_r.
  - rewrite (IH N1). done.
  - rewrite (IH N3). rewrite (Permutation_app_comm (leaves l)). done.
Qed.
