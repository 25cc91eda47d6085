(** Proofs about the tree arithmetic. *)
From Coq Require Import ZifyBool ZifyNat ZifyN.
From stdpp Require Import prelude gmap.
From Verif Require Import Tree_Model.
Local Open Scope N_scope.

(** ** Coordinates: the node of level [k] and rank [j] *)
Definition nd (k j : N) : N := j * 2 ^ (k + 1) + (2 ^ k - 1).

Lemma pow_pos k : 0 < 2 ^ k.
Proof. apply N.neq_0_lt_0, N.pow_nonzero. lia. Qed.
Lemma pow_S k : 2 ^ (k + 1) = 2 * 2 ^ k.
Proof. replace (k + 1) with (N.succ k) by lia. apply N.pow_succ_r'. Qed.

Lemma nd_ones k j : nd k j = N.lor (N.shiftl j (k + 1)) (N.ones k).
Proof.
  unfold nd. rewrite N.ones_equiv, N.shiftl_mul_pow2, N.pred_sub.
  rewrite <- N.lxor_lor, <- N.add_nocarry_lxor; [lia| |].
  all: apply N.bits_inj; intros m; rewrite N.land_spec, N.bits_0, <- N.pred_sub, <- N.ones_equiv,
    <- N.shiftl_mul_pow2; destruct (decide (m < k)) as [Hm|Hm];
    [rewrite N.shiftl_spec_low by lia; reflexivity
    |rewrite N.ones_spec_high by lia; apply andb_false_r].
Qed.

Lemma nd_bit k j m : N.testbit (nd k j) m =
  if m <? k then true else if m =? k then false else N.testbit j (m - (k + 1)).
Proof.
  rewrite nd_ones, N.lor_spec.
  destruct (N.ltb_spec m k) as [H|H].
  { rewrite N.ones_spec_low by lia. apply orb_true_r. }
  rewrite N.ones_spec_high by lia. rewrite orb_false_r.
  destruct (N.eqb_spec m k) as [->|H'].
  { apply N.shiftl_spec_low. lia. }
  apply N.shiftl_spec_high'. lia.
Qed.

Lemma trailing_ones_nd k j : trailing_ones (nd k j) = k.
Proof.
  induction k as [|k IH] using N.peano_ind.
  { unfold nd. replace (j * 2 ^ (0 + 1) + (2 ^ 0 - 1)) with (2 * j).
    2: { change (2 ^ (0 + 1)) with 2. change (2 ^ 0) with 1. lia. }
    destruct j; reflexivity. }
  assert (E : nd (N.succ k) j = 2 * nd k j + 1).
  { unfold nd. replace (N.succ k) with (k + 1) by lia. rewrite !pow_S.
    pose proof (pow_pos k). lia. }
  rewrite E. unfold trailing_ones in *.
  destruct (nd k j) as [|p] eqn:En; cbn [N.mul N.add].
  - change (0 = k) in IH. subst k. reflexivity.
  - change (trailing_ones_pos p = k) in IH. change (1 + trailing_ones_pos p = N.succ k). lia.
Qed.

Lemma land1 x : N.land x 1 = N.b2n (N.odd x).
Proof. change 1 with (N.ones 1). rewrite N.land_ones. change (2 ^ 1) with 2.
  rewrite <- N.bit0_mod. now rewrite N.bit0_odd. Qed.

Lemma nd_odd k j : N.odd (nd k j) = negb (k =? 0).
Proof.
  rewrite <- N.bit0_odd, nd_bit.
  destruct (N.ltb_spec 0 k), (N.eqb_spec k 0), (N.eqb_spec 0 k); try lia; reflexivity.
Qed.

Lemma level_nd k j : level (nd k j) = k.
Proof.
  unfold level. rewrite land1, nd_odd.
  destruct (N.eqb_spec k 0) as [->|H]; [reflexivity|].
  cbn. apply trailing_ones_nd.
Qed.

Lemma is_leaf_nd k j : is_leaf (nd k j) = (k =? 0).
Proof.
  unfold is_leaf. rewrite land1, nd_odd. destruct (k =? 0); reflexivity.
Qed.

Lemma nd_inj k j k' j' : nd k j = nd k' j' → k = k' ∧ j = j'.
Proof.
  intros H. assert (k = k') as <- by (rewrite <- (level_nd k j), H; apply level_nd).
  split; [done|]. unfold nd in H. pose proof (pow_pos (k + 1)).
  assert (j * 2 ^ (k + 1) = j' * 2 ^ (k + 1)) by lia. apply N.mul_cancel_r in H1; lia.
Qed.

Lemma nd_leaf i : nd 0 i = leaf_to_node i.
Proof. unfold nd, leaf_to_node. change (2 ^ (0 + 1)) with 2. change (2 ^ 0) with 1. lia. Qed.

(** every number is a node *)
Lemma nd_exists x : ∃ j, x = nd (level x) j.
Proof.
  assert (H : ∃ k j, x = nd k j).
  { destruct x as [|p].
    { exists 0, 0. reflexivity. }
    induction p as [p IH|p IH|].
    - destruct IH as (k & j & E). exists (k + 1), j.
      change (N.pos p~1) with (2 * N.pos p + 1). rewrite E. unfold nd. rewrite !pow_S.
      pose proof (pow_pos k). lia.
    - exists 0, (N.pos p). rewrite nd_leaf. unfold leaf_to_node. lia.
    - exists 1, 0. reflexivity. }
  destruct H as (k & j & ->). exists j. now rewrite level_nd.
Qed.

(** ** The three moves *)
Lemma b2n_bit (b : bool) m : N.testbit (N.b2n b) m = (m =? 0) && b.
Proof. destruct b, (N.eqb_spec m 0) as [->|]; cbn; try reflexivity.
  - destruct m; [lia|reflexivity].
Qed.

Lemma shiftl_bit a s m : N.testbit (N.shiftl a s) m = (s <=? m) && N.testbit a (m - s).
Proof.
  destruct (N.leb_spec s m).
  - rewrite N.shiftl_spec_high'; [reflexivity|lia].
  - rewrite N.shiftl_spec_low; [reflexivity|lia].
Qed.

Lemma one_bit m : N.testbit 1 m = (m =? 0).
Proof. change 1 with (N.b2n true). rewrite b2n_bit. apply andb_true_r. Qed.
Lemma three_bit m : N.testbit 3 m = (m <=? 1).
Proof.
  change 3 with (N.ones 2). destruct (N.leb_spec m 1).
  - rewrite N.ones_spec_low; [reflexivity|lia].
  - rewrite N.ones_spec_high; [reflexivity|lia].
Qed.

Lemma bit_half j m : N.testbit (j / 2) m = N.testbit j (m + 1).
Proof. change (j / 2) with (j / 2 ^ 1). rewrite <- N.shiftr_div_pow2. apply N.shiftr_spec'. Qed.

Lemma double_bit j m : N.testbit (2 * j) m = negb (m =? 0) && N.testbit j (m - 1).
Proof.
  replace (2 * j) with (N.shiftl j 1) by (rewrite N.shiftl_mul_pow2; change (2 ^ 1) with 2; lia).
  rewrite shiftl_bit. f_equal. destruct (N.leb_spec 1 m), (N.eqb_spec m 0); lia || reflexivity.
Qed.
Lemma sdouble_bit j m : N.testbit (2 * j + 1) m = (m =? 0) || N.testbit j (m - 1).
Proof.
  destruct m as [|p].
  - rewrite N.testbit_odd_0. reflexivity.
  - replace (N.pos p) with (N.succ (N.pos p - 1)) by lia. rewrite N.testbit_odd_succ by lia.
    replace (N.succ (N.pos p - 1) =? 0) with false by lia. cbn [orb]. f_equal. lia.
Qed.

Ltac bit_cases :=
  repeat match goal with
  | |- context [?a <? ?b] => destruct (N.ltb_spec a b)
  | |- context [?a <=? ?b] => destruct (N.leb_spec a b)
  | |- context [?a =? ?b] => destruct (N.eqb_spec a b)
  end; try lia; cbn [andb orb negb xorb]; rewrite ?xorb_false_r, ?xorb_false_l, ?orb_false_r, ?orb_true_r, ?andb_false_r, ?andb_true_r.

Lemma left_nd k j : left (nd (k + 1) j) = nd k (2 * j).
Proof.
  unfold left. rewrite level_nd. replace (k + 1 - 1) with k by lia.
  apply N.bits_inj. intros m. rewrite N.lxor_spec, !nd_bit, shiftl_bit, one_bit, double_bit.
  bit_cases; try reflexivity. f_equal; lia.
Qed.

Lemma right_nd k j : N.lxor (nd (k + 1) j) (N.shiftl 3 (level (nd (k + 1) j) - 1)) = nd k (2 * j + 1).
Proof.
  rewrite level_nd. replace (k + 1 - 1) with k by lia.
  apply N.bits_inj. intros m. rewrite N.lxor_spec, !nd_bit, shiftl_bit, three_bit, sdouble_bit.
  bit_cases; try reflexivity. f_equal; lia.
Qed.

Lemma parent_step_nd k j : parent_step (nd k j) = nd (k + 1) (j / 2).
Proof.
  unfold parent_step. rewrite level_nd. cbv zeta. rewrite land1.
  apply N.bits_inj. intros m.
  rewrite N.lxor_spec, N.lor_spec, !nd_bit, !shiftl_bit, one_bit, b2n_bit, bit_half.
  rewrite <- N.bit0_odd, N.shiftr_spec', nd_bit.
  bit_cases; try reflexivity; try (f_equal; lia).
  - replace (m - (k + 1)) with 0 by lia. replace (0 + (k + 1) - (k + 1)) with 0 by lia.
    destruct (N.testbit j 0); reflexivity.
Qed.

(** ** Ancestors of a slot, independently of the size of the tree *)
Definition anc (k i : N) : N := nd k (i / 2 ^ k).

Lemma anc_0 i : anc 0 i = leaf_to_node i.
Proof. unfold anc. change (2 ^ 0) with 1. rewrite N.div_1_r. apply nd_leaf. Qed.
Lemma level_anc k i : level (anc k i) = k.
Proof. apply level_nd. Qed.
Lemma div_S i k : i / 2 ^ (k + 1) = i / 2 ^ k / 2.
Proof. rewrite pow_S, N.mul_comm, N.div_div; [reflexivity|apply N.pow_nonzero; lia|lia]. Qed.
Lemma parent_step_anc k i : parent_step (anc k i) = anc (k + 1) i.
Proof. unfold anc. rewrite parent_step_nd, div_S. reflexivity. Qed.

(** [below x i]: slot [i] lies in the subtree of node [x] *)
Definition below (x i : N) : Prop := x = anc (level x) i.

Global Instance below_dec x i : Decision (below x i).
Proof. unfold below. apply _. Qed.

Lemma below_anc k i : below (anc k i) i.
Proof. unfold below. now rewrite level_anc. Qed.
Lemma below_leaf i j : below (leaf_to_node i) j ↔ j = i.
Proof.
  unfold below. rewrite <- nd_leaf, level_nd, anc_0, nd_leaf. unfold leaf_to_node. lia.
Qed.
Lemma below_nd k j i : below (nd k j) i ↔ i / 2 ^ k = j.
Proof.
  unfold below. rewrite level_nd. unfold anc. split.
  - intros H. apply nd_inj in H. destruct H. done.
  - intros ->. done.
Qed.
Lemma below_nd_range k j i : below (nd k j) i ↔ j * 2 ^ k <= i < (j + 1) * 2 ^ k.
Proof.
  rewrite below_nd. pose proof (pow_pos k) as Hp. split.
  - intros <-. pose proof (N.mul_div_le i (2 ^ k)). pose proof (N.mul_succ_div_gt i (2 ^ k)). lia.
  - intros [H1 H2]. symmetry. apply (N.div_unique i (2 ^ k) j (i - j * 2 ^ k)); lia.
Qed.

(** two ancestors of one slot are comparable: the lower one lies inside *)
Lemma below_trans k k' i m : k <= k' → below (anc k i) m → below (anc k' i) m.
Proof.
  unfold anc. rewrite !below_nd. intros H E.
  replace k' with (k + (k' - k)) by lia.
  rewrite N.pow_add_r, <- !N.div_div by (apply N.pow_nonzero; lia). now rewrite E.
Qed.

Lemma below_level x y i : below x i → below y i → level x = level y → x = y.
Proof. unfold below. intros -> ->. rewrite !level_anc. congruence. Qed.

(** laminarity *)
Lemma below_nested x y i : below x i → below y i → level x <= level y → ∀ m, below x m → below y m.
Proof.
  intros Hx Hy Hl m Hm. rewrite Hy. rewrite Hx in Hm. eapply below_trans; eauto.
Qed.

(** ** Range: which nodes exist in a tree of [n] slots *)
Lemma node_width_pos n : 0 < n → node_width n = 2 * n - 1.
Proof. intros H. unfold node_width. destruct (N.eqb_spec n 0); lia. Qed.

Definition H (n : N) : N := log2 (node_width n).

Lemma H_spec n : 0 < n → 2 ^ H n <= 2 * n - 1 /\ 2 * n - 1 < 2 * 2 ^ H n.
Proof.
  intros Hn. unfold H, log2. rewrite node_width_pos by lia.
  pose proof (N.log2_spec (2 * n - 1) ltac:(lia)) as Hs. rewrite N.pow_succ_r' in Hs. lia.
Qed.

Lemma nd_lt_width_0 i n : i < n → nd 0 i < node_width n.
Proof. intros. rewrite nd_leaf, node_width_pos by lia. unfold leaf_to_node. lia. Qed.

Lemma nd_lt_width k j n : 0 < n → nd (k + 1) j < node_width n ↔ j * 2 ^ (k + 1) + 2 ^ k < n.
Proof.
  intros Hn. rewrite node_width_pos by lia. unfold nd. rewrite !pow_S.
  pose proof (pow_pos k). lia.
Qed.

Lemma root_anc n i : i < n → root n = anc (H n) i.
Proof.
  intros Hi. pose proof (H_spec n ltac:(lia)) as Hs. unfold anc.
  rewrite N.div_small by lia. unfold root, nd, H in *. rewrite N.shiftl_mul_pow2. lia.
Qed.
Lemma root_lt n : 0 < n → root n < node_width n.
Proof.
  intros Hn. pose proof (H_spec n Hn). rewrite node_width_pos by lia.
  unfold root, H in *. rewrite N.shiftl_mul_pow2. pose proof (pow_pos (log2 (node_width n))). lia.
Qed.
Lemma level_root n : level (root n) = H n.
Proof.
  unfold root. rewrite N.shiftl_mul_pow2. replace (1 * 2 ^ log2 (node_width n) - 1) with (nd (H n) 0).
  - apply level_nd.
  - unfold nd, H. lia.
Qed.

(** a node of the tree has at least one slot of the tree below it *)
Lemma node_has_slot x n : x < node_width n → ∃ i, i < n ∧ below x i.
Proof.
  intros Hx. destruct (nd_exists x) as [j E].
  assert (Hn : 0 < n) by (unfold node_width in Hx; destruct (N.eqb_spec n 0); lia).
  exists (j * 2 ^ level x). rewrite E. split.
  - rewrite E in Hx. rewrite level_nd. destruct (N.eq_dec (level x) 0) as [E0|E0].
    + rewrite E0 in *. rewrite nd_leaf, node_width_pos in Hx by lia. unfold leaf_to_node in Hx.
      change (2 ^ 0) with 1. lia.
    + replace (level x) with (level x - 1 + 1) in Hx |- * by lia.
      apply nd_lt_width in Hx; [|lia]. pose proof (pow_pos (level x - 1)). lia.
  - rewrite level_nd. apply below_nd_range. pose proof (pow_pos (level x)). lia.
Qed.

(** height of a node of the tree *)
Lemma level_le n x : 0 < n → x < node_width n → level x <= H n.
Proof.
  intros Hn Hx. destruct (nd_exists x) as [j E]. rewrite E, level_nd in *.
  pose proof (H_spec n Hn) as Hs. rewrite node_width_pos in Hx by lia.
  assert (2 ^ level x <= 2 * n - 1).
  { unfold nd in Hx. rewrite pow_S in Hx. pose proof (pow_pos (level x)).
    assert (0 <= j * (2 * 2 ^ level x)) by lia. lia. }
  destruct (N.le_gt_cases (level x) (H n)) as [|Hc]; [done|].
  exfalso. assert (2 ^ (H n + 1) <= 2 ^ level x) by (apply N.pow_le_mono_r; lia).
  rewrite pow_S in *. lia.
Qed.
