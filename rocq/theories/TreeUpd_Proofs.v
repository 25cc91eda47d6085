(** Proofs about making and applying an update path. *)
From Coq Require Import ZifyBool ZifyNat ZifyN.
From stdpp Require Import prelude gmap.
From Verif Require Import Tree_Model Tree_Spec TreeMath_Proofs TreePath_Proofs Tree_Proofs.
Local Open Scope N_scope.

Section Proofs.
  Context (P : prims) (L : laws P).
  Notation node := (node (pub P)).
  Notation tree := (list node).
  Notation get := (get P).
  Notation set_node := (set_node P).
  Notation num_leaves := (num_leaves P).
  Notation resolution := (resolution P).
  Notation live := (live P).
  Notation TInv := (TInv P).
  Notation HInv := (HInv P).

  (** ** The chain of path secrets *)
  Lemma chain_length s n : length (chain P s n) = n.
  Proof. revert s. induction n; intros; cbn; auto. Qed.
  Lemma chain_drop s n d p : chain P s n !! d = Some p → drop (S d) (chain P s n) = chain P p (n - S d).
  Proof.
    revert s d. induction n as [|n IH]; intros s d; cbn [chain]; [done|].
    destruct d as [|d]; cbn [lookup list_lookup drop].
    - intros [= <-]. by replace (S n - 1)%nat with n by lia.
    - intros E. apply IH in E. done.
  Qed.
  Lemma chain_is_some s n d : (d < n)%nat → ∃ p, chain P s n !! d = Some p.
  Proof. intros H. apply lookup_lt_is_Some_2. by rewrite chain_length. Qed.

  Lemma climb_spec cur xs acc : NoDup xs →
    ∃ lr, climb_secrets P cur xs acc = (default cur (last (chain P cur (length xs))), lr) ∧
      (∀ j x, xs !! j = Some x → lr !! x = chain P cur (length xs) !! j) ∧
      (∀ x, x ∉ xs → lr !! x = acc !! x).
  Proof.
    revert cur acc. induction xs as [|x xs IH]; intros cur acc Hnd.
    { exists acc. split_and!; done. }
    apply NoDup_cons in Hnd as [Hx Hnd]. cbn [climb_secrets length chain].
    destruct (IH (derive P cur) (<[x := derive P cur]> acc) Hnd) as (lr & E & H1 & H2).
    exists lr. rewrite E. split_and!.
    - f_equal. rewrite (last_cons (derive P cur)). by destruct (last (chain P (derive P cur) (length xs))).
    - intros [|j] y Hy; cbn in Hy.
      + injection Hy as <-. rewrite H2 by done. by rewrite lookup_insert.
      + rewrite (H1 j y Hy). done.
    - intros y Hy. apply not_elem_of_cons in Hy as [Hy1 Hy2]. rewrite H2 by done.
      by rewrite lookup_insert_ne.
  Qed.

  (** ** Sealing *)
  Definition sealed (t : tree) (ps : secret P) (r : N) (ct : ctext P) : Prop :=
    ∃ nd pk rr, get t r = Some nd ∧ kem_public P nd = Some pk ∧ seal P rr pk [ps] = Some ct.

  Lemma seal_opens rr s m ct : seal P rr (pk_of P s) m = Some ct → hopen P s ct = Some m.
  Proof. intros E. destruct (law_open P L s rr m) as (c & E1 & E2). congruence. Qed.

  Lemma seal_all_ok t rs i ps rec : TInv t →
    (∀ r, r ∈ rec → ∃ nd pk, get t r = Some nd ∧ kem_public P nd = Some pk) →
    ∃ cts, seal_all P t rs i ps rec = Ok cts ∧ Forall2 (sealed t ps) rec cts.
  Proof.
    intros HT. revert i. induction rec as [|r rec IH]; intros i Hr; cbn [seal_all].
    { exists []. split; constructor. }
    destruct (Hr r) as (nd & pk & E1 & E2); [by left|].
    destruct (ti_key P t HT _ _ _ E1 E2) as (s & ->).
    destruct (law_open P L s (rs i) [ps]) as (c & E3 & _).
    destruct (IH (S i)) as (cts & E4 & E5). { intros; apply Hr; by right. }
    rewrite E1, E2, E3, E4. exists (c :: cts). split; [done|]. constructor; [|done].
    exists nd, (pk_of P s), (rs i). done.
  Qed.

  Lemma seal_all_ext t t' rs i ps rec : (∀ r, r ∈ rec → get t r = get t' r) →
    seal_all P t rs i ps rec = seal_all P t' rs i ps rec.
  Proof.
    revert i. induction rec as [|r rec IH]; intros i E; cbn [seal_all]; [done|].
    rewrite (E r) by (by left). rewrite IH by (intros; apply E; by right). done.
  Qed.

  (** ** Installing a path *)
  Lemma install_spec t xs nodes : length xs = length nodes → NoDup xs →
    (∀ x, x ∈ xs → x < N.of_nat (length t)) →
    ∃ t', install_path P t (zip xs nodes) = Some t' ∧ length t' = length t ∧
      (∀ j x pn, xs !! j = Some x → nodes !! j = Some pn → get t' x = Some (Parent (pn_pub pn) [])) ∧
      (∀ z, z ∉ xs → get t' z = get t z).
  Proof.
    revert t nodes. induction xs as [|x xs IH]; intros t [|pn nodes] Hlen Hnd Hx; try done.
    { exists t. split_and!; done. }
    cbn [zip zip_with install_path]. apply NoDup_cons in Hnd as [Hxn Hnd].
    assert (Hxl : x < N.of_nat (length t)) by (apply Hx; by left).
    rewrite set_node_ok by done.
    destruct (IH (<[N.to_nat x := Parent (pn_pub pn) []]> t) nodes) as (t' & E & Hl & H1 & H2).
    { cbn in Hlen. lia. } { done. } { intros y Hy. rewrite insert_length. apply Hx. by right. }
    rewrite insert_length in Hl. exists t'. split_and!; [done|done| |].
    - intros [|j] y pn' Hy Hp; cbn in Hy, Hp.
      + injection Hy as <-. injection Hp as <-. rewrite H2 by done. rewrite get_insert by done.
        by rewrite decide_True.
      + eauto.
    - intros z Hz. apply not_elem_of_cons in Hz as [Hz1 Hz2]. rewrite H2 by done.
      rewrite get_insert by done. by rewrite decide_False.
  Qed.

  (** ** Making a path *)
  Definition agree_off (c : N) (t t' : tree) : Prop :=
    length t = length t' ∧ ∀ z, ¬ below z c → get t z = get t' z.

  Lemma agree_off_res c t t' y : agree_off c t t' → y < node_width (num_leaves t) → ¬ below y c →
    resolution t' y = resolution t y.
  Proof.
    intros [Hl E] Hy Hb. symmetry. apply resolution_ext; [done|done|].
    intros z Hz. apply E. intros Hc. by apply Hb, Hz.
  Qed.

  (** the published node [pn] for path secret [ps] and sibling [y] *)
  Definition published (t : tree) (e : N * N * secret P) (pn : path_node (pub P) (ctext P)) : Prop :=
    pn_pub pn = pk_of P e.2 ∧
    ∃ rec, resolution t e.1.2 = Some rec ∧ Forall2 (sealed t e.2) rec (pn_cts pn).

  Definition own_step (o : gmap N (secret P)) (e : N * N * secret P) : gmap N (secret P) :=
    <[e.1.1 := e.2]> o.

  Lemma rekey_ok t c rs l : TInv t →
    (∀ x y ps, (x, y, ps) ∈ l → x < node_width (num_leaves t) ∧ below x c ∧
        y < node_width (num_leaves t) ∧ ¬ below y c) →
    ∀ t0 d own acc, agree_off c t t0 →
    ∃ t' nodes, rekey_path P t0 rs d l own acc = (t', Ok (acc ++ nodes, foldl own_step own l)) ∧
      install_path P t0 (zip (fst <$> (fst <$> l)) nodes) = Some t' ∧
      Forall2 (published t) l nodes.
  Proof.
    intros HT. induction l as [|[[x y] ps] l IH]; intros Hl t0 d own acc Hag.
    { exists t0, []. cbn. rewrite app_nil_r. split_and!; constructor. }
    destruct (Hl x y ps) as (Hx & Hxc & Hy & Hyc); [by left|].
    cbn [rekey_path]. destruct Hag as [Hlen Hag].
    assert (Hxl : x < N.of_nat (length t0)) by (rewrite <- Hlen; by apply TInv_lt).
    rewrite set_node_ok by done.
    set (t1 := <[N.to_nat x := Parent (pk_of P ps) []]> t0).
    assert (Hag1 : agree_off c t t1).
    { split; [unfold t1; by rewrite insert_length|]. intros z Hz. unfold t1.
      rewrite get_insert by done. rewrite decide_False; [by apply Hag|]. intros ->. done. }
    rewrite (agree_off_res c t t1 y) by done.
    destruct (resolution_ok P t y HT Hy) as (rec & Erec & Rrec). rewrite Erec.
    destruct (seal_all_ok t (rs d) 0 ps rec HT) as (cts & Ecs & Fcs).
    { intros r Hr. apply (ro_in _ _ _ _ Rrec) in Hr as [Hr _]. done. }
    rewrite (seal_all_ext t1 t).
    2: { intros r Hr. symmetry. apply Hag1. intros Hc. apply Hyc.
         apply (ro_in _ _ _ _ Rrec) in Hr as [_ Hr]. by apply Hr. }
    rewrite Ecs.
    destruct (IH ltac:(intros x' y' ps' Hin; apply (Hl x' y' ps'); by right) t1 (S d) (<[x := ps]> own)
                (acc ++ [mk_path_node (pk_of P ps) cts]) Hag1) as (t' & nodes & E1 & E2 & E3).
    exists t', (mk_path_node (pk_of P ps) cts :: nodes). split_and!.
    - rewrite E1. rewrite <- app_assoc. done.
    - cbn [fmap list_fmap zip zip_with install_path fst]. rewrite set_node_ok by done. exact E2.
    - constructor; [|done]. split; [done|]. exists rec. done.
  Qed.

  Lemma own_fold (l : list (N * N * secret P)) own : NoDup (fst <$> (fst <$> l)) →
    (∀ j e, l !! j = Some e → foldl own_step own l !! e.1.1 = Some e.2) ∧
    (∀ z, z ∉ fst <$> (fst <$> l) → foldl own_step own l !! z = own !! z).
  Proof.
    revert own. induction l as [|e l IH]; intros own Hnd; [done|].
    cbn in Hnd. apply NoDup_cons in Hnd as [H1 H2]. cbn [foldl].
    destruct (IH (own_step own e) H2) as [I1 I2]. split.
    - intros [|j] e' He; cbn in He; [|eauto]. injection He as <-.
      rewrite I2 by done. apply lookup_insert.
    - intros z Hz. cbn in Hz. apply not_elem_of_cons in Hz as [Hz1 Hz2]. rewrite I2 by done.
      apply lookup_insert_ne. done.
  Qed.

  (** the tree after a re-key of slot [i] with secret [s] *)
  Record rekeyed (t t' : tree) (i : N) (s : secret P) (dp : list N) : Prop := mk_rekeyed {
    rk_len : length t' = length t;
    rk_leaf : ∃ l, get t (leaf_to_node i) = Some (Leaf l) ∧
      get t' (leaf_to_node i) = Some (Leaf (mk_leaf (l_cid l) (pk_of P s) (l_index l)));
    rk_path : ∀ j x, dp !! j = Some x → ∃ ps, chain P s (length dp) !! j = Some ps ∧
      get t' x = Some (Parent (pk_of P ps) []);
    rk_rest : ∀ z, z ∉ dp → z ≠ leaf_to_node i → get t' z = get t z }.

  Lemma dp_not_leaf n i dp cp : i < n → climbs n i 0 dp cp → ∀ j, leaf_to_node j ∉ dp.
  Proof.
    intros Hi Hc j Hj. apply (climbs_elem n i 0 dp cp) in Hj; [|done|done].
    rewrite level_leaf in Hj. lia.
  Qed.

  Lemma generate_ok t i s rs : TInv t → live t i →
    ∃ dp cp t' nodes own,
      direct_path i (num_leaves t) = Some dp ∧ copath i (num_leaves t) = Some cp ∧
      climbs (num_leaves t) i 0 dp cp ∧
      generate_update_path P t i s rs =
        (t', Ok (mk_update_path i (pk_of P s) nodes,
                 default (derive P s) (last (chain P s (length dp))), own)) ∧
      rekeyed t t' i s dp ∧ length nodes = length dp ∧
      (∀ j y ps, cp !! j = Some y → chain P s (length dp) !! j = Some ps →
         ∃ pn rec, nodes !! j = Some pn ∧ resolution t y = Some rec ∧ Forall2 (sealed t ps) rec (pn_cts pn)) ∧
      (∀ j pn, nodes !! j = Some pn → ∃ ps, chain P s (length dp) !! j = Some ps ∧ pn_pub pn = pk_of P ps) ∧
      own !! leaf_to_node i = Some s ∧
      (∀ j x, dp !! j = Some x → own !! x = chain P s (length dp) !! j) ∧
      (∀ z, z ∉ dp → z ≠ leaf_to_node i → own !! z = None).
  Proof.
    intros HT Hi. pose proof (live_lt P t i HT Hi) as Hin. destruct Hi as [l Hl].
    destruct (paths_spec (num_leaves t) i Hin) as (dp & cp & Edp & Ecp & Hc).
    pose proof (climbs_length _ _ _ _ _ Hc) as Hlen.
    pose proof (climbs_NoDup _ _ _ _ _ Hc) as Hnd.
    pose proof (get_lt P _ _ _ Hl) as Hll.
    pose proof (dp_not_leaf _ _ _ _ Hin Hc) as Hdl.
    set (pss := chain P s (length dp)).
    set (t1 := <[N.to_nat (leaf_to_node i) := Leaf (mk_leaf (l_cid l) (pk_of P s) (l_index l))]> t).
    set (lst := zip (zip dp cp) pss).
    assert (Hpl : length pss = length dp) by apply chain_length.
    assert (Hzl : length (zip dp cp) = length dp) by (rewrite zip_with_length; lia).
    assert (Hfst : fst <$> (fst <$> lst) = dp).
    { unfold lst. rewrite fst_zip by lia. apply fst_zip. lia. }
    assert (Hlst : ∀ j e, lst !! j = Some e ↔ dp !! j = Some e.1.1 ∧ cp !! j = Some e.1.2 ∧ pss !! j = Some e.2).
    { intros j [[x y] ps]. unfold lst. rewrite lookup_zip_with_Some. split.
      - intros ([x' y'] & ps' & [= -> -> ->] & E1 & E2).
        apply lookup_zip_with_Some in E1 as (x'' & y'' & [= -> ->] & E3 & E4). done.
      - intros (E1 & E2 & E3). exists (x, y), ps. split_and!; [done| |done].
        apply lookup_zip_with_Some. exists x, y. done. }
    assert (Hpre : ∀ x y ps, (x, y, ps) ∈ lst → x < node_width (num_leaves t) ∧ below x i ∧
        y < node_width (num_leaves t) ∧ ¬ below y i).
    { intros x y ps Hin'. apply elem_of_list_lookup in Hin' as [j Hj]. apply Hlst in Hj as (J1 & J2 & J3).
      cbn in J1, J2. apply elem_of_list_lookup_2 in J1.
      apply (climbs_elem _ _ _ _ _ _ Hin Hc) in J1 as (K1 & K2 & _).
      destruct (climbs_sibling_in _ _ _ _ _ _ _ Hc J2) as (K3 & _).
      split_and!; [done|done|done|]. intros Hb. exact (climbs_sibling_notin _ _ _ _ _ _ _ Hin Hc J2 Hb). }
    assert (Hag : agree_off i t t1).
    { split; [unfold t1; by rewrite insert_length|]. intros z Hz. unfold t1. rewrite get_insert by done.
      rewrite decide_False; [done|]. intros ->. apply Hz, below_leaf_refl. }
    destruct (rekey_ok t i rs lst HT Hpre t1 O {[leaf_to_node i := s]} [] Hag) as (t' & nodes & E1 & E2 & E3).
    rewrite Hfst in E2. cbn [app] in E1.
    assert (Hnl : length nodes = length dp).
    { apply Forall2_length in E3. unfold lst in E3. rewrite zip_with_length in E3. lia. }
    destruct (install_spec t1 dp nodes) as (t'' & F1 & F2 & F3 & F4); [lia|done| |].
    { intros x Hx. unfold t1. rewrite insert_length. apply (climbs_elem _ _ _ _ _ _ Hin Hc) in Hx as (_ & Hx & _).
      by apply TInv_lt. }
    assert (t'' = t') as -> by congruence.
    assert (Hpub : ∀ j pn, nodes !! j = Some pn → ∃ ps, pss !! j = Some ps ∧ pn_pub pn = pk_of P ps).
    { intros j pn Hj. destruct (Forall2_lookup_r _ _ _ _ _ E3 Hj) as (e & He & [Hp _]).
      apply Hlst in He as (_ & _ & He). eauto. }
    assert (Hown : NoDup (fst <$> (fst <$> lst))) by (by rewrite Hfst).
    destruct (own_fold lst ({[leaf_to_node i := s]} : gmap N (secret P)) Hown) as [O1 O2].
    rewrite Hfst in O2.
    exists dp, cp, t', nodes, (foldl own_step ({[leaf_to_node i := s]} : gmap N (secret P)) lst).
    split; [done|]. split; [done|]. split; [done|]. split.
    { unfold generate_update_path. rewrite Edp, Ecp, Hl. rewrite set_node_ok by done.
      fold t1 pss lst. rewrite E1. done. }
    split.
    { split.
      - rewrite F2. unfold t1. by rewrite insert_length.
      - exists l. split; [done|]. rewrite F4 by (apply Hdl). unfold t1.
        rewrite get_insert by done. by rewrite decide_True.
      - intros j x Hx. destruct (lookup_lt_is_Some_2 nodes j) as [pn Hpn].
        { rewrite Hnl. by eapply lookup_lt_Some. }
        destruct (Hpub j pn Hpn) as (ps & Hps & Hpk). exists ps. split; [done|].
        rewrite (F3 j x pn Hx Hpn), Hpk. done.
      - intros z Hz1 Hz2. rewrite F4 by done. unfold t1. rewrite get_insert by done. by rewrite decide_False. }
    split; [done|]. split.
    { intros j y ps Hy Hps. destruct (lookup_lt_is_Some_2 dp j) as [x Hx].
      { rewrite Hlen. by eapply lookup_lt_Some. }
      assert (He : lst !! j = Some (x, y, ps)) by (apply Hlst; done).
      destruct (Forall2_lookup_l _ _ _ _ _ E3 He) as (pn & Hpn & [_ (rec & R1 & R2)]).
      exists pn, rec. done. }
    split; [done|]. split.
    { rewrite O2 by (apply Hdl). apply lookup_singleton. }
    split.
    { intros j x Hx. destruct (lookup_lt_is_Some_2 cp j) as [y Hy]. { rewrite <- Hlen. by eapply lookup_lt_Some. }
      destruct (lookup_lt_is_Some_2 pss j) as [ps Hps]. { rewrite Hpl. by eapply lookup_lt_Some. }
      assert (He : lst !! j = Some (x, y, ps)) by (apply Hlst; done).
      fold pss. rewrite Hps. apply (O1 j _ He). }
    intros z Hz1 Hz2. rewrite O2 by done. by apply lookup_singleton_ne.
  Qed.
End Proofs.
