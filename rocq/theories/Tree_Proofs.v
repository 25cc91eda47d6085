(** Proofs about the ratchet tree and the update path. *)
From Coq Require Import ZifyBool ZifyNat ZifyN.
From stdpp Require Import prelude gmap.
From Verif Require Import Tree_Model Tree_Spec TreeMath_Proofs TreePath_Proofs.
Local Open Scope N_scope.

Section Proofs.
  Context (P : prims) (L : laws P).
  Notation node := (node (pub P)).
  Notation tree := (list node).
  Notation get := (get P).
  Notation set_node := (set_node P).
  Notation num_leaves := (num_leaves P).
  Notation resolution := (resolution P).
  Notation live := (live P).

  (** ** get / set *)
  Lemma get_lt t x nd : get t x = Some nd → x < N.of_nat (length t).
  Proof. unfold Tree_Model.get. intros E. apply lookup_lt_Some in E. lia. Qed.
  Lemma get_is_some t x : x < N.of_nat (length t) → ∃ nd, get t x = Some nd.
  Proof. intros E. unfold Tree_Model.get. apply lookup_lt_is_Some_2. lia. Qed.
  Lemma set_node_ok t x nd : x < N.of_nat (length t) →
    set_node t x nd = Some (<[N.to_nat x := nd]> t).
  Proof. intros E. unfold Tree_Model.set_node. by replace (N.to_nat x <? length t)%nat with true by lia. Qed.
  Lemma get_insert t x nd z : x < N.of_nat (length t) →
    get (<[N.to_nat x := nd]> t) z = if decide (z = x) then Some nd else get t z.
  Proof.
    intros E. unfold Tree_Model.get. destruct (decide (z = x)) as [->|Hz].
    - apply list_lookup_insert. lia.
    - apply list_lookup_insert_ne. lia.
  Qed.
  Lemma tree_eq (t t' : tree) : (∀ x, get t x = get t' x) → t = t'.
  Proof. intros E. apply list_eq. intros i. specialize (E (N.of_nat i)). unfold Tree_Model.get in E.
    by rewrite Nat2N.id in E. Qed.

  (** ** Shape invariant of trees *)
  Record TInv (t : tree) : Prop := mk_TInv {
    ti_len : (length t > 0)%nat ∧ N.of_nat (length t) = node_width (num_leaves t);
    ti_even : ∀ i nd, get t (leaf_to_node i) = Some nd → ∀ pk um, nd ≠ Parent pk um;
    ti_odd : ∀ x nd, get t x = Some nd → 0 < level x → ∀ l, nd ≠ Leaf l;
    ti_key : ∀ x nd pk, get t x = Some nd → kem_public P nd = Some pk → ∃ s, pk = pk_of P s;
    ti_um : ∀ x pk um, get t x = Some (Parent pk um) →
      NoDup um ∧ ∀ i, i ∈ um → below x i ∧ live t i }.

  Lemma num_leaves_len t n : 0 < n → N.of_nat (length t) = node_width n → num_leaves t = n.
  Proof.
    intros Hn E. rewrite node_width_pos in E by done. unfold Tree_Model.num_leaves.
    destruct (Nat.eqb_spec (length t) 0) as [E0|E0]; [lia|].
    rewrite E. symmetry. apply (N.div_unique (2 * n - 1 + 1) 2 n 0); lia.
  Qed.

  Lemma TInv_pos t : TInv t → 0 < num_leaves t.
  Proof.
    intros [[H1 H2] _ _ _ _]. destruct (N.eq_dec (num_leaves t) 0) as [E|E]; [|lia].
    rewrite E in H2. cbn in H2. lia.
  Qed.
  Lemma TInv_lt t x : TInv t → x < node_width (num_leaves t) ↔ x < N.of_nat (length t).
  Proof. intros [[H1 H2] _ _ _ _]. lia. Qed.
  Lemma TInv_get t x : TInv t → x < node_width (num_leaves t) → ∃ nd, get t x = Some nd.
  Proof. intros HT Hx. apply get_is_some. by apply TInv_lt. Qed.

  Lemma live_lt t i : TInv t → live t i → i < num_leaves t.
  Proof.
    intros HT [l Hl]. apply get_lt, TInv_lt in Hl; [|done].
    pose proof (TInv_pos t HT). rewrite node_width_pos in Hl by done. unfold leaf_to_node in Hl. lia.
  Qed.

  Lemma leaf_or_nd x : (∃ i, x = leaf_to_node i ∧ level x = 0) ∨ 0 < level x.
  Proof.
    destruct (nd_exists x) as [j E]. destruct (N.eq_dec (level x) 0) as [E0|E0]; [left|right; lia].
    exists j. rewrite E0, nd_leaf in E. done.
  Qed.
  Lemma level_leaf i : level (leaf_to_node i) = 0.
  Proof. rewrite <- nd_leaf. apply level_nd. Qed.
  Lemma is_leaf_level x : is_leaf x = (level x =? 0).
  Proof. destruct (nd_exists x) as [j E]. rewrite E, is_leaf_nd, level_nd. done. Qed.

  (** the node covers the slot: it is the leaf itself, or a parent above it
      whose key the slot's owner has *)
  Definition covers (t : tree) (r m : N) : Prop :=
    r = leaf_to_node m ∨ ∃ pk um, get t r = Some (Parent pk um) ∧ below r m ∧ m ∉ um.

  Lemma covers_below t r m : covers t r m → below r m.
  Proof. intros [->|(pk & um & _ & Hb & _)]; [apply below_leaf_refl|done]. Qed.

  (** ** Resolution *)
  Record res_ok (t : tree) (x : N) (rs : list N) : Prop := mk_res_ok {
    ro_nodup : NoDup rs;
    ro_in : ∀ r, r ∈ rs → (∃ nd pk, get t r = Some nd ∧ kem_public P nd = Some pk) ∧
                          ∀ m, below r m → below x m;
    ro_cover : ∀ m, live t m → below x m → ∃ r, r ∈ rs ∧ covers t r m;
    ro_unique : ∀ m r r', r ∈ rs → r' ∈ rs → covers t r m → covers t r' m → r = r' }.

  Lemma resolution_fuel_ok fuel t x : TInv t → x < node_width (num_leaves t) →
    (N.to_nat (level x) <= fuel)%nat →
    ∃ rs, resolution_fuel P fuel t x = Some rs ∧ res_ok t x rs.
  Proof.
    intros HT. revert x. induction fuel as [|fuel IH]; intros x Hx Hf;
      destruct (TInv_get t x HT Hx) as [nd Hnd]; cbn [resolution_fuel]; rewrite Hnd.
    all: destruct nd as [l|pk um|].
    (* leaf *)
    1,4: exists [x]; split; [done|]; destruct (leaf_or_nd x) as [(i & -> & _)|Hl];
      [|exfalso; by eapply (ti_odd t HT)]; split;
      [apply NoDup_singleton
      |intros r ->%elem_of_list_singleton; split; [by eexists _, _|done]
      |intros m Hm ->%below_leaf_eq; exists (leaf_to_node i); split; [by apply elem_of_list_singleton|by left]
      |by intros m r r' ->%elem_of_list_singleton ->%elem_of_list_singleton].
    (* parent *)
    1,3: exists (x :: (leaf_to_node <$> um)); split; [done|];
      destruct (ti_um t HT _ _ _ Hnd) as [Hum1 Hum2];
      assert (Hx0 : 0 < level x) by
        (destruct (leaf_or_nd x) as [(i & E & _)|Hl]; [subst x; exfalso; by eapply (ti_even t HT)|done]);
      assert (Hnx : ∀ i, x ≠ leaf_to_node i) by (intros i E; rewrite E, level_leaf in Hx0; lia); split;
      [constructor; [intros (i & E & _)%elem_of_list_fmap; by eapply Hnx|
         apply NoDup_fmap_2_strong; [|done]; intros a b _ _; unfold leaf_to_node; lia]
      |intros r [->|(i & -> & Hi)%elem_of_list_fmap]%elem_of_cons;
        [split; [by eexists _, _|done]
        |destruct (Hum2 i Hi) as [Hb [l Hl]]; split;
          [by eexists _, _|by intros m ->%below_leaf_eq]]
      |intros m Hm Hb; destruct (decide (m ∈ um)) as [Hin|Hin];
        [exists (leaf_to_node m); split; [right; by apply elem_of_list_fmap_1|by left]
        |exists x; split; [left|right; by eexists _, _]]
      |].
    (* parent: uniqueness *)
    1,2: assert (Huni : ∀ m i, i ∈ um → covers t (leaf_to_node i) m → covers t x m → False) by
        (intros m i Hi Hc [E|(pk' & um' & E1 & E2 & E3)]; [by eapply Hnx|];
         apply covers_below, below_leaf_eq in Hc; subst m; congruence);
      intros m r r' [->|(i & -> & Hi)%elem_of_list_fmap]%elem_of_cons
        [->|(i' & -> & Hi')%elem_of_list_fmap]%elem_of_cons Hc Hc';
      [done|exfalso; eauto|exfalso; eauto
      |apply covers_below, below_leaf_eq in Hc, Hc'; by subst].
    (* blank *)
    all: rewrite is_leaf_level; destruct (N.eqb_spec (level x) 0) as [E0|E0].
    1,3: exists []; split; [done|]; destruct (leaf_or_nd x) as [(i & -> & _)|Hl]; [|lia]; split;
      [constructor|by intros r ?%elem_of_nil
      |intros m [l Hl] ->%below_leaf_eq; congruence
      |by intros m r r' ?%elem_of_nil].
    1: lia.
    destruct (children (num_leaves t) x Hx ltac:(lia)) as (C1 & C2 & r & C3 & C4 & C5 & C6 & C7 & C8 & C9).
    destruct (IH (left x)) as (a & Ea & Ra); [done|lia|].
    destruct (IH r) as (b & Eb & Rb); [done|lia|].
    rewrite Ea, C3, Eb. exists (a ++ b). split; [done|].
    assert (Hslot : ∀ z, z ∈ a ∨ z ∈ b → ∃ m, below z m).
    { intros z Hz. destruct (node_has_slot z (num_leaves t)) as (m & _ & Hm); [|eauto].
      assert (∃ nd, get t z = Some nd) as [nd' Hnd'].
      { destruct Hz as [Hz|Hz]; [apply (ro_in _ _ _ Ra) in Hz|apply (ro_in _ _ _ Rb) in Hz];
          destruct Hz as [(? & ? & ? & _) _]; eauto. }
      apply get_lt in Hnd'. by apply TInv_lt. }
    split.
    - apply NoDup_app. split_and!; [apply Ra| |apply Rb].
      intros z Hza Hzb. destruct (Hslot z ltac:(auto)) as [m Hm].
      apply (ro_in _ _ _ Ra) in Hza as [_ Hza]. apply (ro_in _ _ _ Rb) in Hzb as [_ Hzb]. eauto.
    - intros z [Hz|Hz]%elem_of_app.
      + apply (ro_in _ _ _ Ra) in Hz as [Hz1 Hz2]. split; eauto.
      + apply (ro_in _ _ _ Rb) in Hz as [Hz1 Hz2]. split; eauto.
    - intros m Hm Hb. destruct (C8 m (live_lt t m HT Hm) Hb) as [Hb'|Hb'].
      + destruct (ro_cover _ _ _ Ra m Hm Hb') as (z & Hz & Hc). exists z. rewrite elem_of_app. eauto.
      + destruct (ro_cover _ _ _ Rb m Hm Hb') as (z & Hz & Hc). exists z. rewrite elem_of_app. eauto.
    - intros m z z' [Hz|Hz]%elem_of_app [Hz'|Hz']%elem_of_app Hc Hc'.
      + by eapply (ro_unique _ _ _ Ra).
      + exfalso. apply (ro_in _ _ _ Ra) in Hz as [_ Hz]. apply (ro_in _ _ _ Rb) in Hz' as [_ Hz'].
        eapply C9; [apply Hz|apply Hz']; by eapply covers_below.
      + exfalso. apply (ro_in _ _ _ Rb) in Hz as [_ Hz]. apply (ro_in _ _ _ Ra) in Hz' as [_ Hz'].
        eapply C9; [apply Hz'|apply Hz]; by eapply covers_below.
      + by eapply (ro_unique _ _ _ Rb).
  Qed.

  Lemma resolution_ok t x : TInv t → x < node_width (num_leaves t) →
    ∃ rs, resolution t x = Some rs ∧ res_ok t x rs.
  Proof. intros HT Hx. by apply resolution_fuel_ok. Qed.

  (** the resolution only looks at the nodes of the subtree *)
  Lemma resolution_fuel_ext fuel t t' x : length t = length t' → x < node_width (num_leaves t) →
    (∀ z, (∀ m, below z m → below x m) → get t z = get t' z) →
    resolution_fuel P fuel t x = resolution_fuel P fuel t' x.
  Proof.
    intros Hlen. assert (Hn : num_leaves t = num_leaves t') by (unfold Tree_Model.num_leaves; by rewrite Hlen).
    revert x. induction fuel as [|fuel IH]; intros x Hx E; cbn [resolution_fuel];
      rewrite <- (E x) by done; destruct (get t x) as [[]|] eqn:Eg; try done.
    rewrite is_leaf_level. destruct (N.eqb_spec (level x) 0) as [E0|E0]; [done|].
    destruct (children (num_leaves t) x Hx ltac:(lia)) as (C1 & C2 & r & C3 & C4 & C5 & C6 & C7 & C8 & C9).
    rewrite <- Hn, C3. rewrite (IH (left x)), (IH r); [done|done| |done|]; eauto.
  Qed.
  Lemma resolution_ext t t' x : length t = length t' → x < node_width (num_leaves t) →
    (∀ z, (∀ m, below z m → below x m) → get t z = get t' z) → resolution t x = resolution t' x.
  Proof. apply resolution_fuel_ext. Qed.

  (** ** Member invariant *)
  Record HInv (t : tree) (i : N) (own : gmap N (secret P)) : Prop := mk_HInv {
    hi_leaf : ∃ l s, get t (leaf_to_node i) = Some (Leaf l) ∧ own !! leaf_to_node i = Some s ∧
                     l_pub l = pk_of P s;
    hi_dom : ∀ x s, own !! x = Some s → below x i;
    hi_key : ∀ x pk um, get t x = Some (Parent pk um) → below x i →
       if decide (i ∈ um) then own !! x = None else ∃ s, own !! x = Some s ∧ pk = pk_of P s }.

  Lemma held_covers t i own r nd pk : TInv t → HInv t i own →
    get t r = Some nd → kem_public P nd = Some pk →
    match own !! r with
    | Some s => covers t r i ∧ pk = pk_of P s
    | None => ¬ covers t r i
    end.
  Proof.
    intros HT HI Hr Hpk. destruct (hi_leaf _ _ _ HI) as (l' & s' & H1 & H2 & H3).
    destruct (own !! r) as [s|] eqn:Es.
    - pose proof (hi_dom _ _ _ HI _ _ Es) as Hb. destruct nd as [l|pk' um|]; cbn in Hpk; [| |done].
      + assert (r = leaf_to_node i) as ->.
        { destruct (leaf_or_nd r) as [(j & -> & _)|Hl].
          - apply below_leaf_eq in Hb. by subst.
          - exfalso. exact (ti_odd t HT _ _ Hr Hl l eq_refl). }
        split; [by left|]. congruence.
      + pose proof (hi_key _ _ _ HI _ _ _ Hr Hb) as Hk. destruct (decide (i ∈ um)) as [Hin|Hin]; [congruence|].
        destruct Hk as (s0 & E1 & E2). split; [right; eauto|congruence].
    - intros [->|(pk' & um & E1 & E2 & E3)]; [congruence|].
      pose proof (hi_key _ _ _ HI _ _ _ E1 E2) as Hk. rewrite decide_False in Hk by done.
      destruct Hk as (s0 & E4 & _). congruence.
  Qed.
End Proofs.
