(** Proofs about direct paths, copaths and children. *)
From Coq Require Import ZifyBool ZifyNat ZifyN.
From stdpp Require Import prelude gmap.
From Verif Require Import Tree_Model TreeMath_Proofs.
Local Open Scope N_scope.

(** ** Halves of a node *)
Lemma below_half k j i : below (nd (k + 1) j) i ↔ below (nd k (2 * j)) i ∨ below (nd k (2 * j + 1)) i.
Proof.
  rewrite !below_nd, div_S. set (q := i / 2 ^ k).
  pose proof (N.div_mod' q 2). pose proof (N.mod_lt q 2 ltac:(lia)). lia.
Qed.

Lemma below_halves_disjoint k j i : below (nd k (2 * j)) i → below (nd k (2 * j + 1)) i → False.
Proof. rewrite !below_nd. lia. Qed.

(** a node outside the tree has no slot of the tree in its right half *)
Lemma out_of_range n k j m : m < n → node_width n <= nd (k + 1) j →
  below (nd (k + 1) j) m → below (nd k (2 * j)) m.
Proof.
  intros Hm Hw Hb. apply below_half in Hb as [Hb|Hb]; [done|exfalso].
  apply below_nd_range in Hb.
  assert (¬ (nd (k + 1) j < node_width n)) as Hn by lia. apply Hn, nd_lt_width; [lia|].
  rewrite pow_S. lia.
Qed.

Lemma anc_child n k i m : i < n → m < n → node_width n <= anc (k + 1) i →
  below (anc (k + 1) i) m → below (anc k i) m.
Proof.
  intros Hi Hm Hw Hb. pose proof (below_anc (k + 1) i) as Hbi. unfold anc in Hw, Hb, Hbi.
  apply out_of_range with (n := n) in Hb; [|done|done].
  apply out_of_range with (n := n) in Hbi; [|done|done].
  apply below_nd in Hb, Hbi. unfold anc. apply below_nd. congruence.
Qed.

(** ** right *)
Lemma right_loop_spec fuel n q j : (N.to_nat q <= fuel)%nat → j * 2 ^ q < n →
  ∃ y, right_loop fuel (node_width n) (nd q j) = Some y ∧ y < node_width n ∧ level y <= q ∧
    (∀ m, below y m → below (nd q j) m) ∧ (∀ m, m < n → below (nd q j) m → below y m).
Proof.
  revert q j. induction fuel as [|fuel IH]; intros q j Hf Hj.
  - assert (q = 0) as -> by lia. change (2 ^ 0) with 1 in Hj.
    exists (nd 0 j). cbn [right_loop]. pose proof (nd_lt_width_0 j n ltac:(lia)).
    replace (nd 0 j <? node_width n) with true by lia. rewrite level_nd. repeat split; try done.
  - cbn [right_loop]. destruct (N.ltb_spec (nd q j) (node_width n)) as [Hw|Hw].
    { exists (nd q j). rewrite level_nd. repeat split; done || lia. }
    destruct (N.eq_dec q 0) as [->|Hq].
    { change (2 ^ 0) with 1 in Hj. pose proof (nd_lt_width_0 j n ltac:(lia)). lia. }
    assert (∃ p, q = p + 1) as [p ->] by (exists (q - 1); lia). rewrite left_nd.
    destruct (IH p (2 * j)) as (y & E & Hy & Hl & H1 & H2); [lia| |].
    { rewrite pow_S in Hj. lia. }
    exists y. repeat split; [done|done|lia| |].
    + intros m Hm. apply below_half. left. auto.
    + intros m Hm Hb. apply H2; [done|]. eapply out_of_range; eauto.
Qed.

(** the children of a parent node of the tree *)
Lemma children n x : x < node_width n → 0 < level x →
  level (left x) < level x ∧ left x < node_width n ∧
  ∃ r, right x n = Some r ∧ r < node_width n ∧ level r < level x ∧
    (∀ m, below (left x) m → below x m) ∧ (∀ m, below r m → below x m) ∧
    (∀ m, m < n → below x m → below (left x) m ∨ below r m) ∧
    (∀ m, below (left x) m → below r m → False).
Proof.
  intros Hx Hl. destruct (nd_exists x) as [j Ex].
  assert (∃ k, level x = k + 1) as [k Ek] by (exists (level x - 1); lia). rewrite Ek in Ex. subst x.
  rewrite level_nd in *. clear Ek.
  assert (Hn : 0 < n) by (unfold node_width in Hx; destruct (N.eqb_spec n 0); lia).
  pose proof (proj1 (nd_lt_width k j n Hn) Hx) as Hr.
  rewrite left_nd, level_nd. split; [lia|]. split.
  { destruct (N.eq_dec k 0) as [->|Hk].
    - apply nd_lt_width_0. change (2 ^ (0 + 1)) with 2 in Hr. change (2 ^ 0) with 1 in Hr. lia.
    - assert (∃ p, k = p + 1) as [p ->] by (exists (k - 1); lia).
      apply nd_lt_width; [done|]. rewrite !pow_S in *. pose proof (pow_pos p). lia. }
  unfold right. rewrite right_nd, level_nd.
  destruct (right_loop_spec (N.to_nat (k + 1)) n k (2 * j + 1)) as (y & E & Hy & Hly & H1 & H2); [lia| |].
  { rewrite pow_S in Hr. lia. }
  exists y. split; [done|]. split; [done|]. split; [lia|]. repeat split.
  - intros m Hm. apply below_half. by left.
  - intros m Hm. apply below_half. right. auto.
  - intros m Hm Hb. apply below_half in Hb as [Hb|Hb]; [by left|right; auto].
  - intros m Ha Hb. apply H1 in Hb. eapply below_halves_disjoint; eauto.
Qed.

(** ** parent *)
Lemma parent_loop_spec fuel n i k : i < n → k <= H n → (N.to_nat (H n - k) <= fuel)%nat →
  ∃ k', k <= k' ∧ k' <= H n ∧ parent_loop fuel (node_width n) (anc k i) = Some (anc k' i) ∧
    anc k' i < node_width n ∧ ∀ q, k <= q → q < k' → node_width n <= anc q i.
Proof.
  intros Hi. revert k. induction fuel as [|fuel IH]; intros k Hk Hf.
  - assert (k = H n) as -> by lia. exists (H n). cbn [parent_loop].
    pose proof (root_lt n ltac:(lia)) as Hr. rewrite (root_anc n i) in Hr by done.
    replace (anc (H n) i <? node_width n) with true by lia. repeat split; lia.
  - cbn [parent_loop]. destruct (N.ltb_spec (anc k i) (node_width n)) as [Hw|Hw].
    { exists k. repeat split; lia. }
    assert (k < H n).
    { destruct (N.eq_dec k (H n)) as [->|]; [|lia].
      pose proof (root_lt n ltac:(lia)) as Hr. rewrite (root_anc n i) in Hr by done. lia. }
    rewrite parent_step_anc.
    destruct (IH (k + 1)) as (k' & H1 & H2 & H3 & H4 & H5); [lia|lia|].
    exists k'. repeat split; [lia|lia|done|done|].
    intros q Hq1 Hq2. destruct (N.eq_dec q k) as [->|]; [done|]. apply H5; lia.
Qed.

Lemma parent_spec n i k : i < n → k < H n →
  ∃ k', k < k' ∧ k' <= H n ∧ parent (anc k i) n = Some (anc k' i) ∧
    anc k' i < node_width n ∧ ∀ q, k < q → q < k' → node_width n <= anc q i.
Proof.
  intros Hi Hk. unfold parent. rewrite parent_step_anc.
  destruct (parent_loop_spec (N.to_nat (log2 (node_width n)) + 1) n i (k + 1))
    as (k' & H1 & H2 & H3 & H4 & H5); [done|lia|fold (H n); lia|].
  exists k'. repeat split; [lia|lia|done|done|]. intros q Hq1 Hq2. apply H5; lia.
Qed.

(** slots below the parent but outside all nodes skipped by the climb *)
Lemma skipped n i k k' m : i < n → m < n → k <= k' →
  (∀ q, k < q → q <= k' → node_width n <= anc q i) → below (anc k' i) m → below (anc k i) m.
Proof.
  intros Hi Hm Hk. revert Hk. induction k' as [|q IH] using N.peano_ind; intros Hk Hs Hb.
  { by replace k with 0 by lia. }
  destruct (N.eq_dec k (N.succ q)) as [->|]; [done|].
  apply IH; [lia|intros; apply Hs; lia|].
  rewrite <- N.add_1_r in *. eapply anc_child; eauto. apply Hs; lia.
Qed.

Lemma anc_lt_aux1 j jp p d : 0 < p → 0 < d → j + 1 <= d * (2 * jp + 1) →
  j * (2 * p) + (p - 1) < jp * (2 * (2 * (p * d))) + (2 * (p * d) - 1).
Proof.
  intros Hp Hd Hj. apply (N.mul_le_mono_r _ _ p) in Hj.
  replace (d * (2 * jp + 1) * p) with (2 * (jp * (p * d)) + p * d) in Hj by ring.
  replace (jp * (2 * (2 * (p * d)))) with (4 * (jp * (p * d))) by ring.
  replace (j * (2 * p)) with (2 * (j * p)) by ring.
  replace ((j + 1) * p) with (j * p + p) in Hj by ring.
  generalize dependent (jp * (p * d)). generalize dependent (j * p). generalize dependent (p * d).
  intros. lia.
Qed.
Lemma anc_lt_aux2 j jp p d : 0 < p → 0 < d → d * (2 * jp + 1) <= j →
  jp * (2 * (2 * (p * d))) + (2 * (p * d) - 1) < j * (2 * p) + (p - 1).
Proof.
  intros Hp Hd Hj. apply (N.mul_le_mono_r _ _ p) in Hj.
  replace (d * (2 * jp + 1) * p) with (2 * (jp * (p * d)) + p * d) in Hj by ring.
  replace (jp * (2 * (2 * (p * d)))) with (4 * (jp * (p * d))) by ring.
  replace (j * (2 * p)) with (2 * (j * p)) by ring.
  assert (0 < p * d) by (apply N.mul_pos_pos; done).
  generalize dependent (jp * (p * d)). generalize dependent (j * p). generalize dependent (p * d).
  intros. lia.
Qed.

(** position of an ancestor relative to a lower one *)
Lemma anc_lt k q i : k <= q →
  (below (nd q (2 * (i / 2 ^ (q + 1)))) i → anc k i < anc (q + 1) i) ∧
  (below (nd q (2 * (i / 2 ^ (q + 1)) + 1)) i → anc (q + 1) i < anc k i).
Proof.
  intros Hk. rewrite !below_nd. unfold anc, nd. set (jp := i / 2 ^ (q + 1)).
  set (j := i / 2 ^ k). pose proof (pow_pos k) as Hp.
  assert (Hj : i / 2 ^ q = j / 2 ^ (q - k)).
  { unfold j. rewrite N.div_div by (apply N.pow_nonzero; lia). rewrite <- N.pow_add_r.
    do 2 f_equal. lia. }
  assert (Hq : 2 ^ q = 2 ^ k * 2 ^ (q - k)) by (rewrite <- N.pow_add_r; f_equal; lia).
  rewrite !pow_S. rewrite Hj, Hq. set (d := 2 ^ (q - k)). assert (0 < d) by apply pow_pos.
  pose proof (N.mul_div_le j d). pose proof (N.mul_succ_div_gt j d).
  split; intros E; rewrite E in *.
  - apply anc_lt_aux1; [done..|lia].
  - apply anc_lt_aux2; [done..|lia].
Qed.

Lemma sibling_spec n i k k' : i < n → k < k' → anc k' i < node_width n →
  parent (anc k i) n = Some (anc k' i) →
  (∀ q, k < q → q < k' → node_width n <= anc q i) →
  ∃ y, sibling (anc k i) n = Some y ∧ y < node_width n ∧ level y < k' ∧
    (∀ m, below y m → below (anc k' i) m ∧ ¬ below (anc k i) m) ∧
    (∀ m, m < n → below (anc k' i) m → below (anc k i) m ∨ below y m).
Proof.
  intros Hi Hk Hw Hp Hs. unfold sibling. rewrite Hp.
  assert (∃ q, k' = q + 1) as [q ->] by (exists (k' - 1); lia).
  pose proof (anc_lt k q i ltac:(lia)) as [Hlt Hgt].
  pose proof (below_anc (q + 1) i) as Hb. unfold anc at 1 in Hb. apply below_half in Hb.
  pose proof (children n (anc (q + 1) i) Hw ltac:(rewrite level_anc; lia)) as
    (Hll & Hlw & r & Er & Hr & Hlr & Cl & Cr & Cc & Cd).
  rewrite level_anc in Hll, Hlr.
  assert (Hleft : left (anc (q + 1) i) = nd q (2 * (i / 2 ^ (q + 1)))) by apply left_nd.
  rewrite Hleft in *.
  assert (Hkq : ∀ m, below (anc k i) m → below (anc q i) m) by (intros m; apply below_trans; lia).
  destruct Hb as [Hb|Hb].
  - specialize (Hlt Hb). replace (anc k i <? anc (q + 1) i) with true by lia.
    exists r. split; [done|]. split; [done|]. split; [lia|].
    assert (Hq : anc q i = nd q (2 * (i / 2 ^ (q + 1)))).
    { unfold anc. apply below_nd in Hb. congruence. }
    split.
    + intros m Hm. split; [auto|]. intros Hm2. apply Hkq in Hm2. rewrite Hq in Hm2. eapply Cd; eauto.
    + intros m Hm Hbm. destruct (Cc m Hm Hbm) as [Hc|Hc]; [left|by right].
      rewrite <- Hq in Hc. apply (skipped n i k q); [done|done|lia| |done].
      intros q' Hq1 Hq2. apply Hs; lia.
  - specialize (Hgt Hb). replace (anc k i <? anc (q + 1) i) with false by lia.
    exists (nd q (2 * (i / 2 ^ (q + 1)))). rewrite level_nd.
    split; [done|]. split; [done|]. split; [lia|].
    assert (Hq : anc q i = nd q (2 * (i / 2 ^ (q + 1)) + 1)).
    { unfold anc. apply below_nd in Hb. congruence. }
    split.
    + intros m Hm. split; [by apply Cl|]. intros Hm2. apply Hkq in Hm2. rewrite Hq in Hm2.
      eapply below_halves_disjoint; eauto.
    + intros m Hm Hbm. unfold anc in Hbm. apply below_half in Hbm as [Hc|Hc]; [by right|left].
      rewrite <- Hq in Hc. apply (skipped n i k q); [done|done|lia| |done].
      intros q' Hq1 Hq2. apply Hs; lia.
Qed.

(** ** The paths, as an inductive description *)

(** [climbs n i k dp cp]: going up from the ancestor of level [k] to the root
    meets the nodes [dp], with the siblings [cp] *)
Inductive climbs (n i : N) : N → list N → list N → Prop :=
| climbs_root : climbs n i (H n) [] []
| climbs_up k k' y dp cp :
    k < k' → k' <= H n → anc k' i < node_width n →
    (∀ q, k < q → q < k' → node_width n <= anc q i) →
    y < node_width n → level y < k' →
    (∀ m, below y m → below (anc k' i) m ∧ ¬ below (anc k i) m) →
    (∀ m, m < n → below (anc k' i) m → below (anc k i) m ∨ below y m) →
    climbs n i k' dp cp →
    climbs n i k (anc k' i :: dp) (y :: cp).

Lemma anc_root_iff n i k : i < n → k <= H n → anc k i = root n ↔ k = H n.
Proof.
  intros Hi Hk. rewrite (root_anc n i) by done. split; [|by intros ->].
  intros E. rewrite <- (level_anc k i), E. apply level_anc.
Qed.

Lemma copath_loop_spec fuel n i k : i < n → k <= H n → anc k i < node_width n →
  (N.to_nat (H n - k) < fuel)%nat →
  ∃ dp cp, copath_loop fuel n (anc k i) = Some cp ∧ climbs n i k dp cp ∧
    (k < H n → direct_path_loop fuel n (anc k i) = Some dp).
Proof.
  intros Hi. revert k. induction fuel as [|fuel IH]; intros k Hk Hw Hf; [lia|].
  cbn [copath_loop direct_path_loop].
  destruct (N.eqb_spec (anc k i) (root n)) as [E|E].
  { apply anc_root_iff in E; [|done|done]. subst k. exists [], []. repeat split; [constructor|lia]. }
  assert (k < H n) by (rewrite anc_root_iff in E by done; lia).
  destruct (parent_spec n i k) as (k' & H1 & H2 & H3 & H4 & H5); [done|done|].
  destruct (sibling_spec n i k k') as (y & S1 & S2 & S3 & S4 & S5); try done.
  rewrite S1, H3.
  destruct (IH k') as (dp & cp & I1 & I2 & I3); [lia|done|lia|].
  rewrite I1. exists (anc k' i :: dp), (y :: cp). split; [done|]. split.
  { econstructor; eauto. }
  intros _. destruct (N.eqb_spec (anc k' i) (root n)) as [E'|E'].
  - apply anc_root_iff in E'; [|done|done]. subst k'. inversion I2 as [|k0 k1 ? ? ? Hk0 Hk1]; [done|lia].
  - rewrite I3; [done|]. rewrite anc_root_iff in E' by done. lia.
Qed.

Lemma paths_spec n i : i < n →
  ∃ dp cp, direct_path i n = Some dp ∧ copath i n = Some cp ∧ climbs n i 0 dp cp.
Proof.
  intros Hi. unfold direct_path, copath. rewrite <- anc_0.
  destruct (copath_loop_spec (N.to_nat (log2 (node_width n)) + 1) n i 0) as (dp & cp & C1 & C2 & C3).
  - done.
  - lia.
  - rewrite anc_0, <- nd_leaf. by apply nd_lt_width_0.
  - unfold H. lia.
  - exists dp, cp. split; [|done]. destruct (N.eqb_spec (anc 0 i) (root n)) as [E|E].
    + apply anc_root_iff in E; [|done|lia]. inversion C2 as [|k0 k1 ? ? ? Hk0 Hk1]; [done|lia].
    + apply C3. rewrite anc_root_iff in E; [|done|lia]. lia.
Qed.

(** ** Facts read off the description *)
Lemma climbs_length n i k dp cp : climbs n i k dp cp → length dp = length cp.
Proof. induction 1; cbn; lia. Qed.

Lemma climbs_level_gt n i k dp cp x : climbs n i k dp cp → x ∈ dp → k < level x ∧ level x <= H n.
Proof.
  induction 1 as [|k k' y dp cp H1 H2 H3 H4 H5 H6 H7 H8 H9 IH]; [by rewrite elem_of_nil|].
  rewrite elem_of_cons. intros [->|Hx]; [rewrite level_anc; lia|]. specialize (IH Hx). lia.
Qed.

(** the direct path is the list of all the nodes of the tree above the slot *)
Lemma climbs_elem n i k dp cp x : i < n → climbs n i k dp cp →
  x ∈ dp ↔ below x i ∧ x < node_width n ∧ k < level x.
Proof.
  intros Hi. induction 1 as [|k k' y dp cp H1 H2 H3 H4 H5 H6 H7 H8 H9 IH].
  - rewrite elem_of_nil. split; [done|]. intros (Hb & Hw & Hl).
    pose proof (level_le n x ltac:(lia) Hw). lia.
  - rewrite elem_of_cons, IH. split.
    + intros [->|(Ha & Hb & Hc)].
      * rewrite level_anc. split_and!; [apply below_anc|done|lia].
      * split_and!; [done|done|lia].
    + intros (Ha & Hb & Hc).
      destruct (N.lt_trichotomy (level x) k') as [Hl|[Hl|Hl]].
      * exfalso. specialize (H4 (level x) Hc Hl). unfold below in Ha. rewrite <- Ha in H4. lia.
      * left. rewrite Ha, Hl. done.
      * right. done.
Qed.

Lemma climbs_NoDup n i k dp cp : climbs n i k dp cp → NoDup dp.
Proof.
  induction 1 as [|k k' y dp cp H1 H2 H3 H4 H5 H6 H7 H8 H9 IH]; constructor; [|done].
  intros Hx. apply (climbs_level_gt n i k' dp cp) in Hx; [|done]. rewrite level_anc in Hx. lia.
Qed.

(** nesting along the path *)
Lemma climbs_nested n i k dp cp d x m : climbs n i k dp cp → dp !! d = Some x →
  below (anc k i) m → below x m.
Proof.
  intros Hc Hd Hm. apply elem_of_list_lookup_2 in Hd as Hx.
  apply (climbs_level_gt n i k dp cp) in Hx as Hl; [|done].
  assert (∃ q, x = anc q i) as [q ->].
  { clear - Hc Hx. induction Hc; [by apply elem_of_nil in Hx|]. apply elem_of_cons in Hx as [->|]; eauto. }
  rewrite level_anc in Hl. eapply below_trans; [|done]. lia.
Qed.

(** every slot outside the starting subtree sits below exactly one sibling *)
Lemma climbs_cover n i k dp cp m : i < n → m < n → climbs n i k dp cp → ¬ below (anc k i) m →
  ∃ d y x, cp !! d = Some y ∧ dp !! d = Some x ∧ below y m ∧
    (∀ d' x', dp !! d' = Some x' → below x' m ↔ (d <= d')%nat) ∧
    (∀ d' y', cp !! d' = Some y' → below y' m → d' = d).
Proof.
  intros Hi Hm. induction 1 as [|k k' y dp cp H1 H2 H3 H4 H5 H6 H7 H8 H9 IH]; intros Hb.
  - exfalso. apply Hb. rewrite <- (root_anc n i) by done. rewrite (root_anc n m) by done. apply below_anc.
  - destruct (decide (below (anc k' i) m)) as [Hin|Hout].
    + destruct (H8 m Hm Hin) as [|Hy]; [done|].
      exists O, y, (anc k' i). split_and!; [done|done|done| |].
      * intros [|d'] x' Hx; [split; [lia|by injection Hx as <-]|].
        split; [lia|]. intros _. cbn in Hx. eapply climbs_nested; eauto.
      * intros [|d'] y' Hy' Hb'; [done|]. exfalso. cbn in Hy'.
        assert (Hno : ∀ k dp cp, climbs n i k dp cp → ∀ d y', cp !! d = Some y' → below (anc k i) m → ¬ below y' m).
        { clear. induction 1 as [|k k' y dp cp H1 H2 H3 H4 H5 H6 H7 H8 H9 IH]; intros d y' Hd Hk; [done|].
          destruct d as [|d]; cbn in Hd.
          - injection Hd as <-. intros Hy. apply H7 in Hy as [_ Hy]. done.
          - eapply IH; eauto. eapply below_trans; [|exact Hk]. lia. }
        eapply Hno; eauto.
    + destruct (IH Hout) as (d & y0 & x0 & E1 & E2 & E3 & E4 & E5).
      exists (S d), y0, x0. split_and!; [done|done|done| |].
      * intros [|d'] x' Hx; cbn in Hx; [injection Hx as <-; split; [done|lia]|].
        rewrite (E4 d' x' Hx). lia.
      * intros [|d'] y' Hy Hb'; cbn in Hy.
        -- injection Hy as <-. exfalso. apply Hout, H7, Hb'.
        -- f_equal. eauto.
Qed.

(** nothing below a sibling is below the starting point *)
Lemma climbs_sibling_disjoint n i k dp cp d y m : climbs n i k dp cp → cp !! d = Some y →
  below (anc k i) m → ¬ below y m.
Proof.
  intros Hc. revert d. induction Hc as [|k k' y0 dp cp H1 H2 H3 H4 H5 H6 H7 H8 H9 IH]; intros d Hd Hk; [done|].
  destruct d as [|d]; cbn in Hd.
  - injection Hd as <-. intros Hy. apply H7 in Hy as [_ Hy]. done.
  - eapply IH; eauto. eapply below_trans; [|exact Hk]. lia.
Qed.

Lemma climbs_sibling_in n i k dp cp d y : climbs n i k dp cp → cp !! d = Some y →
  y < node_width n ∧ ∃ x, dp !! d = Some x ∧ level y < level x ∧ ∀ m, below y m → below x m.
Proof.
  intros Hc. revert d. induction Hc as [|k k' y0 dp cp H1 H2 H3 H4 H5 H6 H7 H8 H9 IH]; intros d Hd; [done|].
  destruct d as [|d]; cbn in Hd.
  - injection Hd as <-. split; [done|]. exists (anc k' i). rewrite level_anc. split_and!; [done|done|].
    intros m Hm. apply H7, Hm.
  - apply IH in Hd. done.
Qed.

(** siblings are not on the path (nor above it) *)
Lemma climbs_sibling_notin n i k dp cp d y : i < n → climbs n i k dp cp → cp !! d = Some y → below y i → False.
Proof. intros Hi Hc Hd Hb. eapply (climbs_sibling_disjoint n i k dp cp); eauto. apply below_anc. Qed.

(** one-directional forms *)
Lemma below_leaf_eq i j : below (leaf_to_node i) j → j = i.
Proof. apply below_leaf. Qed.
Lemma below_leaf_refl i : below (leaf_to_node i) i.
Proof. by apply below_leaf. Qed.
Global Opaque below anc nd.
