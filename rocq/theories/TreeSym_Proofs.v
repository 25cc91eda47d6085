(** Secrecy of the group key agreement with symbolic cryptography (C20, C22). *)
From Coq Require Import ZifyBool ZifyNat ZifyN.
From stdpp Require Import prelude gmap.
From Verif Require Import Tree_Model Tree_Spec TreeSym_Spec TreeMath_Proofs TreePath_Proofs Tree_Proofs
  TreeUpd_Proofs TreeApply_Proofs TreeWorld_Proofs.
Local Open Scope N_scope.

(** ** Who may know a path secret

    [aud]: for every random number of the history, who may know the secret derived
    from it in k steps. *)
Notation aud := (gmap N (nat → gset N)).

Fixpoint base (t : term) : option (N * nat) :=
  match t with
  | TFresh f => Some (f, O)
  | TDerive t => match base t with Some (f, k) => Some (f, S k) | None => None end
  | _ => None
  end.
Definition holders (A : aud) (t : term) : option (gset N) :=
  match base t with
  | Some (f, k) => match A !! f with Some a => Some (a k) | None => None end
  | None => None
  end.
Definition mono (A : aud) : Prop := ∀ f a, A !! f = Some a → ∀ k, a k ⊆ a (S k).
Definition extends (A A' : aud) : Prop := ∀ f a, A !! f = Some a → A' !! f = Some a.

Lemma holders_extends A A' t H : extends A A' → holders A t = Some H → holders A' t = Some H.
Proof.
  intros HE. unfold holders. destruct (base t) as [[f k]|]; [|done]. destruct (A !! f) as [a|] eqn:E; [|done].
  by rewrite (HE _ _ E).
Qed.

Definition reach (A : aud) (bad : N → Prop) (t : term) : Prop :=
  match holders A t with Some H => ∃ n, n ∈ H ∧ bad n | None => True end.
Fixpoint good (A : aud) (bad : N → Prop) (t : term) : Prop :=
  match t with
  | TKdf r _ _ => good A bad r
  | TExpand LInit _ => True
  | TExpand _ t => good A bad t
  | _ => reach A bad t
  end.
Lemma good_base A bad t : is_Some (base t) → good A bad t = reach A bad t.
Proof. destruct t; cbn; try done; by intros [? [=]]. Qed.
Lemma good_derive A bad t : mono A → good A bad t → good A bad (TDerive t).
Proof.
  intros HM. cbn. unfold reach, holders. cbn [base]. destruct (base t) as [[f k]|] eqn:E; [|done].
  rewrite good_base by eauto. unfold reach, holders. rewrite E. destruct (A !! f) as [a|] eqn:Ea; [|done].
  intros (n & Hn & Hb). exists n. split; [|done]. by apply (HM f a Ea k).
Qed.

(** what holds at one moment of the history *)
Record moment_ok (A : aud) (mo : moment) : Prop := mk_moment_ok {
  mo_own : ∀ n g x s, (n, g) ∈ at_members mo → g_own sym g !! x = Some s → ∃ H, holders A s = Some H ∧ n ∈ H;
  mo_sec : ∃ root init h H, (∀ n g, (n, g) ∈ at_members mo → g_secrets sym g = derive_epoch sym root init h) ∧
    holders A root = Some H ∧ ∀ n, n ∈ H ↔ n ∈ (at_members mo).*1;
  mo_box : ∀ s m x, Box (Pk s) m ∈ at_sent mo → x ∈ m →
    (∃ y, x = TExpand LInit y) ∨ ∃ H H', holders A s = Some H ∧ holders A x = Some H' ∧ H ⊆ H';
  mo_key : ∀ n g x nd s, (n, g) ∈ at_members mo → get sym (g_tree sym g) x = Some nd → kem_public sym nd = Some (Pk s) →
    ∃ H, holders A s = Some H ∧ ∀ k, k ∈ H → ∃ g', (k, g') ∈ at_members mo ∧ below x (g_leaf sym g') }.

Lemma moment_ok_extends A A' mo : extends A A' → moment_ok A mo → moment_ok A' mo.
Proof.
  intros HE [M1 M2 M3 M4]. split.
  - intros n g x s H1 H2. destruct (M1 n g x s H1 H2) as (H & H3 & H4). exists H. split; [by eapply holders_extends|done].
  - destruct M2 as (root & init & h & H & E1 & E2 & E3). exists root, init, h, H. split_and!; [done|by eapply holders_extends|done].
  - intros s m x H1 H2. destruct (M3 s m x H1 H2) as [?|(H & H' & E1 & E2 & E3)]; [by left|right].
    exists H, H'. split_and!; [by eapply holders_extends|by eapply holders_extends|done].
  - intros n g x nd s H1 H2 H3. destruct (M4 n g x nd s H1 H2 H3) as (H & E1 & E2). exists H. split; [by eapply holders_extends|done].
Qed.

(** the attacker never gets further than the audiences allow *)
Lemma known_good A h bad used t : mono A → (∀ n, n ∉ used → A !! n = None) → Forall (moment_ok A) h →
  known h bad used t → good A bad t.
Proof.
  intros HM HU HF. induction 1 as [|n Hn|mo n g s Hmo Hg Hb Hs|mo s m x Hmo Hbox Hs IH Hx|s Hs IH|a b n Ha IHa Hb IHb|l s Hs IH].
  - done.
  - cbn. unfold reach, holders. cbn [base]. by rewrite (HU n Hn).
  - rewrite Forall_forall in HF. specialize (HF mo Hmo). unfold state_secrets in Hs. apply elem_of_app in Hs as [Hs|Hs].
    + apply elem_of_list_fmap in Hs as ([x s'] & -> & Hs). apply elem_of_map_to_list in Hs. cbn [snd].
      destruct (mo_own _ _ HF n g x s' Hg Hs) as (H & H1 & H2).
      rewrite good_base.
      * unfold reach. rewrite H1. eauto.
      * unfold holders in H1. destruct (base s'); [eauto|done].
    + destruct (mo_sec _ _ HF) as (root & init & hh & H & E1 & E2 & E3). rewrite (E1 n g Hg) in Hs.
      cbn [derive_epoch es_epoch es_encryption es_confirmation es_membership es_init sym epoch_kdf expand] in Hs.
      assert (Hr : good A bad root).
      { rewrite good_base.
        - unfold reach. rewrite E2. exists n. split; [|done]. apply E3. apply elem_of_list_fmap. by exists (n, g).
        - unfold holders in E2. destruct (base root); [eauto|done]. }
      repeat (apply elem_of_cons in Hs as [->|Hs]; [exact Hr || exact I|]). by apply elem_of_nil in Hs.
  - rewrite Forall_forall in HF. specialize (HF mo Hmo).
    destruct (mo_box _ _ HF s m x Hbox Hx) as [[y ->]|(H & H' & E1 & E2 & E3)]; [exact I|].
    rewrite good_base in IH by (unfold holders in E1; destruct (base s); [eauto|done]).
    rewrite good_base by (unfold holders in E2; destruct (base x); [eauto|done]).
    unfold reach in *. rewrite E1 in IH. rewrite E2. destruct IH as (n & Hn & Hb). exists n. split; [by apply E3|done].
  - by apply good_derive.
  - exact IHa.
  - destruct l; try exact IH. exact I.
Qed.

(** ** The audience of a commit's path secrets *)
Definition names_below (x : N) (slots : list (N * N)) : gset N :=
  list_to_set (filter (λ p, below x p.2) slots).*1.
Definition path_aud (n0 : N) (slots : list (N * N)) (dp : list N) (k : nat) : gset N :=
  match k with
  | O => {[ n0 ]}
  | S d => match dp !! d with Some x => names_below x slots | None => list_to_set slots.*1 end
  end.
Lemma elem_names_below n x slots : n ∈ names_below x slots ↔ ∃ i, (n, i) ∈ slots ∧ below x i.
Proof.
  unfold names_below. rewrite elem_of_list_to_set, elem_of_list_fmap. split.
  - intros ([n' i] & -> & H). apply elem_of_list_filter in H as [H1 H2]. eauto.
  - intros (i & H1 & H2). exists (n, i). split; [done|]. by apply elem_of_list_filter.
Qed.

Lemma base_chain s f k n d p : base s = Some (f, k) → chain sym s n !! d = Some p → base p = Some (f, k + S d)%nat.
Proof.
  revert s k d. induction n as [|n IH]; intros s k d Hb; cbn [chain]; [done|].
  assert (Hd : base (derive sym s) = Some (f, S k)) by (cbn [sym derive base]; by rewrite Hb).
  destruct d as [|d]; cbn [lookup list_lookup].
  - intros [= <-]. etransitivity; [exact Hd|]. do 2 f_equal. lia.
  - intros E. rewrite (IH _ _ _ Hd E). do 2 f_equal. lia.
Qed.

Definition keys_ok (A : aud) (t : list (node (pub sym))) (slots : list (N * N)) : Prop :=
  ∀ x nd s, get sym t x = Some nd → kem_public sym nd = Some (Pk s) →
    ∃ H, holders A s = Some H ∧ ∀ n, n ∈ H → ∃ i, (n, i) ∈ slots ∧ below x i.
Definition own_ok (A : aud) (n : N) (own : gmap N (secret sym)) : Prop :=
  ∀ x s, own !! x = Some s → ∃ H, holders A s = Some H ∧ n ∈ H.
Definition boxes_ok (A : aud) (bs : list box) : Prop :=
  ∀ s m x, Box (Pk s) m ∈ bs → x ∈ m →
    (∃ y, x = TExpand LInit y) ∨ ∃ H H', holders A s = Some H ∧ holders A x = Some H' ∧ H ⊆ H'.

Lemma own_ok_extends A A' n own : extends A A' → own_ok A n own → own_ok A' n own.
Proof. intros HE HO x s Hx. destruct (HO x s Hx) as (H & H1 & H2). exists H. split; [by eapply holders_extends|done]. Qed.

Lemma dp_mono n i dp cp m : i < n → m < n → climbs n i 0 dp cp →
  ∀ d x x', dp !! d = Some x → dp !! S d = Some x' → below x m → below x' m.
Proof.
  intros Hi Hm Hc d x x' Hx Hx' Hb. destruct (decide (m = i)) as [->|Hne].
  - apply elem_of_list_lookup_2 in Hx'. by apply (climbs_elem _ _ _ _ _ _ Hi Hc) in Hx' as (? & _).
  - destruct (climbs_cover n i 0 dp cp m Hi Hm Hc) as (d0 & y & z & _ & _ & _ & Hd & _).
    { rewrite anc_0. intros Hb'. by apply below_leaf_eq in Hb'. }
    apply (Hd _ _ Hx') . apply (Hd _ _ Hx) in Hb. lia.
Qed.
Lemma dp_last n i dp cp m x : i < n → m < n → climbs n i 0 dp cp → last dp = Some x → below x m.
Proof.
  intros Hi Hm Hc Hl. rewrite last_lookup in Hl. destruct (decide (m = i)) as [->|Hne].
  - apply elem_of_list_lookup_2 in Hl. by apply (climbs_elem _ _ _ _ _ _ Hi Hc) in Hl as (? & _).
  - destruct (climbs_cover n i 0 dp cp m Hi Hm Hc) as (d0 & y & z & _ & Hz & _ & Hd & _).
    { rewrite anc_0. intros Hb'. by apply below_leaf_eq in Hb'. }
    apply (Hd _ _ Hl). apply lookup_lt_Some in Hz. lia.
Qed.

Section Commit.
  Context (A : aud) (wk : list (N * sgroup)) (n0 : N) (g : sgroup) (f : N) (slots : list (N * N)).
  Context (t t1 : list (node (pub sym))) (e : N) (sec : epoch_secrets sym) (h : hash sym) (pr : list (proposal (pub sym)))
    (rs : nat → nat → rnd sym) (t' : list (node (pub sym))) (dp cp : list N) (nodes : list (path_node (pub sym) (ctext sym)))
    (root : secret sym) (own : gmap N (secret sym)) (g' : sgroup) (ks' : list sgroup).
  Context (C : committed sym t t1 e sec h g wk.*2 pr (TFresh f) rs t' dp cp nodes root own g' ks').
  Context (HT1 : TInv sym t1) (HA : mono A) (Hf : A !! f = None) (Hk1 : keys_ok A t1 slots).
  Context (Hn0 : (n0, g_leaf sym g) ∈ slots) (Hwk : ∀ n k, (n, k) ∈ wk → (n, g_leaf sym k) ∈ slots).
  Context (Hlv : ∀ n i, (n, i) ∈ slots → live sym t1 i) (Hown : ∀ n k, (n, k) ∈ wk → own_ok A n (g_own sym k)).
  Let A' := <[f := path_aud n0 slots dp]> A.

  Lemma co_lt n i : (n, i) ∈ slots → i < num_leaves sym t1.
  Proof using HT1 Hlv. intros Hi. apply (live_lt sym t1 _ HT1). by eapply Hlv. Qed.
  Let Hg := co_lt _ _ Hn0.
  Let Hc := cd_climbs _ _ _ _ _ _ _ _ _ _ _ _ _ _ _ _ _ _ _ C.

  Lemma co_extends : extends A A'.
  Proof using Hf. intros f' a E. unfold A'. rewrite lookup_insert_ne; [done|]. intros <-. congruence. Qed.
  Lemma co_holders s d : base s = Some (f, d) → holders A' s = Some (path_aud n0 slots dp d).
  Proof using . intros E. unfold holders, A'. by rewrite E, lookup_insert. Qed.

  Lemma co_mono : mono A'.
  Proof using All.
    intros f' a E k. unfold A' in E. apply lookup_insert_Some in E as [[-> <-]|[Hne E]]; [|by eapply HA].
    intros n Hn. destruct k as [|d]; cbn [path_aud] in *.
    - apply elem_of_singleton in Hn as ->. destruct (dp !! 0%nat) as [x|] eqn:Ex.
      + apply elem_names_below. eexists. split; [exact Hn0|]. apply elem_of_list_lookup_2 in Ex.
        by apply (climbs_elem _ _ _ _ _ _ Hg Hc) in Ex as (? & _).
      + apply elem_of_list_to_set, elem_of_list_fmap. by eexists (_, _).
    - destruct (dp !! d) as [x|] eqn:Ex; destruct (dp !! S d) as [x'|] eqn:Ex'.
      + apply elem_names_below in Hn as (i & Hi & Hb). apply elem_names_below. exists i. split; [done|].
        exact (dp_mono _ _ _ _ i Hg (co_lt _ _ Hi) Hc _ _ _ Ex Ex' Hb).
      + apply elem_names_below in Hn as (i & Hi & Hb). apply elem_of_list_to_set, elem_of_list_fmap. by eexists (_, _).
      + apply lookup_ge_None in Ex. apply lookup_lt_Some in Ex'. lia.
      + done.
  Qed.

  Lemma co_path d x s n i : dp !! d = Some x → chain sym (TFresh f) (length dp) !! d = Some s → (n, i) ∈ slots → below x i →
    ∃ H, holders A' s = Some H ∧ n ∈ H.
  Proof using.
    intros Hd Hs Hi Hb. eexists. split; [apply co_holders; by eapply (base_chain (TFresh f) f 0)|].
    cbn [plus path_aud]. rewrite Hd. apply elem_names_below. eauto.
  Qed.

  Lemma co_root : ∃ H, holders A' root = Some H ∧ ∀ n, n ∈ H ↔ n ∈ slots.*1.
  Proof using All.
    pose proof (cd_root _ _ _ _ _ _ _ _ _ _ _ _ _ _ _ _ _ _ _ C) as Hr.
    destruct (last dp) as [x|] eqn:El.
    - assert (Hlast : ∃ p, last (chain sym (TFresh f) (length dp)) = Some p ∧ base p = Some (f, length dp)).
      { rewrite last_lookup, chain_length. rewrite last_lookup in El. pose proof (lookup_lt_Some _ _ _ El).
        destruct (chain_is_some sym (TFresh f) (length dp) (pred (length dp))) as [p Hp]; [lia|]. exists p. split; [done|].
        rewrite (base_chain (TFresh f) f 0 _ _ _ eq_refl Hp). do 2 f_equal. lia. }
      destruct Hlast as (p & E1 & E2). rewrite E1 in Hr. cbn [from_option id] in Hr. rewrite Hr.
      eexists. split; [by apply co_holders|]. pose proof El as El'. rewrite last_lookup in El'.
      pose proof (lookup_lt_Some _ _ _ El') as Hlt. destruct (length dp) as [|d] eqn:Ed; [lia|]. cbn [pred] in El'.
      cbn [path_aud]. rewrite El'. intros n. rewrite elem_names_below, elem_of_list_fmap. split.
      + intros (i & Hi & _). by exists (n, i).
      + intros ([n' i] & -> & Hi). exists i. split; [done|]. exact (dp_last _ _ _ _ i x Hg (co_lt _ _ Hi) Hc El).
    - apply last_None in El. rewrite El in Hr. cbn in Hr. rewrite Hr.
      eexists. split; [by apply (co_holders _ 1)|]. cbn [path_aud]. rewrite El. cbn [lookup list_lookup].
      intros n. by rewrite elem_of_list_to_set.
  Qed.

  Lemma co_keys : keys_ok A' t' slots.
  Proof using All.
    intros x nd s Hx Hs. pose proof (cd_rekeyed _ _ _ _ _ _ _ _ _ _ _ _ _ _ _ _ _ _ _ C) as R.
    destruct (rk_cases sym t1 t' _ _ _ R x) as [(d & ps & Hd & Hps & E)|[->|(Hx1 & Hx2 & E)]].
    - rewrite E in Hx. injection Hx as <-. cbn in Hs. injection Hs as <-.
      eexists. split; [apply co_holders; by eapply (base_chain (TFresh f) f 0)|].
      cbn [plus path_aud]. rewrite Hd. intros n Hn. by apply elem_names_below in Hn.
    - destruct (rk_leaf _ _ _ _ _ _ R) as (l & _ & E). rewrite E in Hx. injection Hx as <-. cbn in Hs. injection Hs as <-.
      eexists. split; [by apply co_holders|]. cbn [path_aud]. intros n ->%elem_of_singleton.
      eexists. split; [exact Hn0|]. apply below_leaf_refl.
    - rewrite E in Hx. destruct (Hk1 x nd s Hx Hs) as (H & E1 & E2). exists H.
      split; [|done]. eapply holders_extends; [apply co_extends|done].
  Qed.

  Lemma co_own n k : (n, k) ∈ (n0, g') :: zip wk.*1 ks' → own_ok A' n (g_own sym k) ∧ (n, g_leaf sym k) ∈ slots.
  Proof using All.
    intros [E|Hin]%elem_of_cons.
    - injection E as -> ->. rewrite (cd_g' _ _ _ _ _ _ _ _ _ _ _ _ _ _ _ _ _ _ _ C). cbn [advance_epoch g_own g_leaf].
      split; [|done]. intros x s Hs. destruct (decide (x ∈ dp)) as [Hx|Hx].
      + pose proof Hx as Hx'. apply elem_of_list_lookup in Hx as [d Hd].
        pose proof (cd_own_path _ _ _ _ _ _ _ _ _ _ _ _ _ _ _ _ _ _ _ C d x Hd) as Hs'. pose proof (eq_trans (eq_sym Hs') Hs) as Hs2. clear Hs Hs'. rename Hs2 into Hs.
        eapply co_path; [done|done|exact Hn0|]. by apply (climbs_elem _ _ _ _ _ _ Hg Hc) in Hx' as (? & _).
      + destruct (decide (x = leaf_to_node (g_leaf sym g))) as [->|Hxl].
        * pose proof (eq_trans (eq_sym (cd_own_leaf _ _ _ _ _ _ _ _ _ _ _ _ _ _ _ _ _ _ _ C)) Hs) as E. injection E as <-.
          eexists. split; [by apply co_holders|]. cbn [path_aud]. by apply elem_of_singleton.
        * pose proof (eq_trans (eq_sym (cd_own_rest _ _ _ _ _ _ _ _ _ _ _ _ _ _ _ _ _ _ _ C x Hx Hxl)) Hs) as E. done.
    - pose proof (cd_learns _ _ _ _ _ _ _ _ _ _ _ _ _ _ _ _ _ _ _ C) as F.
      apply elem_of_list_lookup in Hin as [q Hq]. rewrite lookup_zip_with in Hq.
      destruct (wk.*1 !! q) as [n'|] eqn:E1; [|done]. destruct (ks' !! q) as [k'|] eqn:E2; [|done]. injection Hq as -> ->.
      rewrite list_lookup_fmap in E1. destruct (wk !! q) as [[n1 k1]|] eqn:E3; [|done]. injection E1 as ->.
      destruct (Forall2_lookup_r _ _ _ _ _ F E2) as (k2 & E4 & El & Hlr).
      rewrite list_lookup_fmap, E3 in E4. injection E4 as <-. pose proof (elem_of_list_lookup_2 _ _ _ E3) as Hin.
      rewrite El. split; [|by apply Hwk]. intros x s Hs. destruct (Hlr x s Hs) as [Hs'|(d & H1 & H2 & H3)].
      + exact (own_ok_extends _ _ _ _ co_extends (Hown _ _ Hin) x s Hs').
      + eapply co_path; [done|done|by apply Hwk|done].
  Qed.

  Lemma co_boxes : boxes_ok A' (boxes (mk_commit pr (mk_update_path (g_leaf sym g) (Pk (TFresh f)) nodes))).
  Proof using All.
    intros s m x Hb Hx. unfold boxes in Hb. cbn [cm_path up_nodes] in Hb.
    apply elem_of_list_In, in_concat in Hb as (cts & H1 & H2). apply elem_of_list_In in H1, H2.
    apply elem_of_list_fmap in H1 as (pn & -> & H1). apply elem_of_list_lookup in H1 as [d Hd].
    pose proof (cd_nodes _ _ _ _ _ _ _ _ _ _ _ _ _ _ _ _ _ _ _ C) as Hnl. pose proof (climbs_length _ _ _ _ _ Hc) as Hlen.
    assert (Hlt : (d < length dp)%nat) by (rewrite <- Hnl; exact (lookup_lt_Some _ _ _ Hd)).
    destruct (lookup_lt_is_Some_2 cp d) as [y Hy]; [lia|]. destruct (chain_is_some sym (TFresh f) (length dp) d) as [ps Hps]; [lia|].
    destruct (cd_cts _ _ _ _ _ _ _ _ _ _ _ _ _ _ _ _ _ _ _ C d y ps Hy Hps) as (pn' & rec & E1 & E2 & F).
    pose proof (eq_trans (eq_sym Hd) E1) as E0. injection E0 as <-. clear E1.
    apply elem_of_list_lookup in H2 as [q Hq]. destruct (Forall2_lookup_r _ _ _ _ _ F Hq) as (r & Hr & (nd & pk & rr & G1 & G2 & G3)).
    cbn in G3. injection G3 as -> <-. apply elem_of_list_singleton in Hx as ->. right.
    destruct (climbs_sibling_in _ _ _ _ _ _ _ Hc Hy) as (Hw & z & Hz & _ & Hsub).
    destruct (resolution_ok sym t1 y HT1 Hw) as (rec' & E3 & HR). rewrite E2 in E3. injection E3 as <-.
    destruct (ro_in _ _ _ _ HR r (elem_of_list_lookup_2 _ _ _ Hr)) as [_ Hin].
    destruct (Hk1 r nd s G1 G2) as (H & K1 & K2). exists H. eexists. split_and!.
    - eapply holders_extends; [apply co_extends|done].
    - apply co_holders. by eapply (base_chain (TFresh f) f 0).
    - cbn [plus path_aud]. rewrite Hz. intros n Hn. destruct (K2 n Hn) as (i & Hi & Hbi). apply elem_names_below. eauto.
  Qed.
End Commit.

(** ** The whole history *)
Definition slots (ws : list (N * sgroup)) : list (N * N) := (λ p, (p.1, g_leaf sym p.2)) <$> ws.
Lemma elem_slots ws n i : (n, i) ∈ slots ws ↔ ∃ g, (n, g) ∈ ws ∧ i = g_leaf sym g.
Proof.
  unfold slots. rewrite elem_of_list_fmap. split.
  - intros ([n' g] & [= -> ->] & H). eauto.
  - intros (g & H & ->). by exists (n, g).
Qed.
Lemma slots_fst ws : (slots ws).*1 = ws.*1.
Proof. unfold slots. rewrite <- list_fmap_compose. done. Qed.
Lemma slots_snd ws : (slots ws).*2 = g_leaf sym <$> ws.*2.
Proof. unfold slots. rewrite <- !list_fmap_compose. done. Qed.

Record SInv (A : aud) (ws : list (N * sgroup)) (t : list (node (pub sym))) (e : N) (sec : epoch_secrets sym) (h : hash sym)
  : Prop := mk_SInv {
  si_view : view sym ws.*2 t e sec h;
  si_mono : mono A;
  si_keys : keys_ok A t (slots ws);
  si_own : ∀ n g, (n, g) ∈ ws → own_ok A n (g_own sym g);
  si_sec : ∃ root init h' H, sec = derive_epoch sym root init h' ∧ holders A root = Some H ∧ ∀ n, n ∈ H ↔ n ∈ ws.*1 }.

Lemma SInv_moment A ws t e sec h sent : SInv A ws t e sec h → boxes_ok A sent → moment_ok A (mk_moment ws sent).
Proof.
  intros HI Hb. destruct (si_view _ _ _ _ _ _ HI) as (HT & Ha & Hm & Hl & Hnd).
  assert (Hag : ∀ n g, (n, g) ∈ ws → agrees sym t e sec h g).
  { intros n g Hg. rewrite Forall_forall in Ha. apply Ha. apply elem_of_list_fmap. by exists (n, g). }
  split; cbn [at_members at_sent].
  - intros n g x s Hg Hs. exact (si_own _ _ _ _ _ _ HI n g Hg x s Hs).
  - destruct (si_sec _ _ _ _ _ _ HI) as (root & init & h' & H & E1 & E2 & E3). exists root, init, h', H.
    split_and!; [|done|done]. intros n g Hg. destruct (Hag n g Hg) as (_ & _ & E & _). congruence.
  - exact Hb.
  - intros n g x nd s Hg Hx Hs. destruct (Hag n g Hg) as (E & _). rewrite E in Hx.
    destruct (si_keys _ _ _ _ _ _ HI x nd s Hx Hs) as (H & H1 & H2). exists H. split; [done|].
    intros k Hk. destruct (H2 k Hk) as (i & Hi & Hbi). apply elem_slots in Hi as (g' & Hg' & ->). eauto.
Qed.

Lemma snd_lookup (ws : list (N * sgroup)) who g : ws.*2 !! who = Some g → ∃ n, ws !! who = Some (n, g).
Proof. rewrite list_lookup_fmap. destruct (ws !! who) as [[n g']|]; [|done]. intros [= <-]. eauto. Qed.

Lemma zip_snd {X Y} (l : list X) (l' : list Y) : length l = length l' → (zip l l').*2 = l'.
Proof. intros E. apply snd_zip. lia. Qed.
Lemma zip_fst {X Y} (l : list X) (l' : list Y) : length l = length l' → (zip l l').*1 = l.
Proof. intros E. apply fst_zip. lia. Qed.
Lemma zip_eta {X Y} (l : list (X * Y)) : zip l.*1 l.*2 = l.
Proof. induction l as [|[a b] l IH]; [done|]. cbn. by f_equal. Qed.

Lemma keys_ok_mono A A' t sl sl' : extends A A' → (∀ n i, (n, i) ∈ sl → (n, i) ∈ sl') → keys_ok A t sl → keys_ok A' t sl'.
Proof.
  intros HE Hs HK x nd s Hx Hk. destruct (HK x nd s Hx Hk) as (H & H1 & H2). exists H.
  split; [by eapply holders_extends|]. intros n Hn. destruct (H2 n Hn) as (i & Hi & Hb). eauto.
Qed.
Lemma boxes_ok_app A b b' : boxes_ok A b → boxes_ok A b' → boxes_ok A (b ++ b').
Proof. intros H1 H2 s m x [Hb|Hb]%elem_of_app Hx; [by eapply H1|by eapply H2]. Qed.

Lemma delete_in {X} (l : list X) i x y : l !! i = Some x → y ∈ l → y = x ∨ y ∈ delete i l.
Proof.
  intros Hx Hy. rewrite (delete_perm l i x Hx) in Hy. by apply elem_of_cons in Hy.
Qed.

(** a commit without joiner: [wk] are the named members that process it *)
Lemma sym_plain A ws t e sec h f rs n0 g wk t1 pr t' dp cp nodes root own g' ks' :
  SInv A ws t e sec h → A !! f = None → (n0, g) ∈ ws → (∀ p, p ∈ wk → p ∈ ws) → TInv sym t1 →
  NoDup (g_leaf sym g :: (g_leaf sym <$> wk.*2)) →
  (∀ i, live sym t1 i ↔ i = g_leaf sym g ∨ i ∈ g_leaf sym <$> wk.*2) →
  keys_ok A t1 ((n0, g_leaf sym g) :: slots wk) →
  committed sym t t1 e sec h g wk.*2 pr (TFresh f) rs t' dp cp nodes root own g' ks' →
  let A' := <[f := path_aud n0 ((n0, g_leaf sym g) :: slots wk) dp]> A in
  extends A A' ∧ (∃ e' sec' h', SInv A' ((n0, g') :: zip wk.*1 ks') t' e' sec' h') ∧
  boxes_ok A' (boxes (mk_commit pr (mk_update_path (g_leaf sym g) (Pk (TFresh f)) nodes))).
Proof.
  intros HI Hf Hg0 Hwk HT1 Hnd Hlv Hk1 C A'. set (sl := (n0, g_leaf sym g) :: slots wk) in *.
  assert (Hn0 : (n0, g_leaf sym g) ∈ sl) by (by left).
  assert (Hwk1 : ∀ n k, (n, k) ∈ wk → (n, g_leaf sym k) ∈ sl).
  { intros n k Hk. right. apply elem_slots. eauto. }
  assert (Hlv1 : ∀ n i, (n, i) ∈ sl → live sym t1 i).
  { intros n i [[= -> ->]|Hin]%elem_of_cons; apply Hlv; [by left|right]. apply elem_slots in Hin as (k & Hk & ->).
    apply elem_of_list_fmap_1. apply elem_of_list_fmap. by exists (n, k). }
  assert (Hown1 : ∀ n k, (n, k) ∈ wk → own_ok A n (g_own sym k)).
  { intros n k Hk. apply (si_own _ _ _ _ _ _ HI). by apply Hwk. }
  pose proof (si_mono _ _ _ _ _ _ HI) as HM.
  pose proof (cd_learns _ _ _ _ _ _ _ _ _ _ _ _ _ _ _ _ _ _ _ C) as F. apply Forall2_length in F. rewrite fmap_length in F.
  assert (Hlen : length wk.*1 = length ks') by (by rewrite fmap_length).
  pose proof (cd_leaves _ _ _ _ _ _ _ _ _ _ _ _ _ _ _ _ _ _ _ C) as El.
  split; [by eapply co_extends|]. split.
  - destruct (committed_view sym _ _ _ _ _ _ _ _ _ _ _ _ _ _ _ _ _ _ C) as (h' & HV).
    { by rewrite fmap_cons. } { intros i. by rewrite fmap_cons, elem_of_cons. }
    eexists _, _, _. split.
    + rewrite fmap_cons, zip_snd by done. exact HV.
    + by eapply co_mono.
    + eapply (keys_ok_mono A' A' _ sl); [by intros ? ?| |by eapply co_keys].
      intros n i Hin. apply elem_slots.
      rewrite !fmap_cons in El. injection El as El1 El2. unfold sl in Hin. apply elem_of_cons in Hin as [[= -> ->]|Hin].
      * exists g'. split; [by left|done].
      * apply elem_slots in Hin as (k & Hk & ->). apply elem_of_list_lookup in Hk as [q Hq].
        destruct (lookup_lt_is_Some_2 ks' q) as [k' Hk']. { rewrite <- F. by eapply lookup_lt_Some. }
        exists k'. split.
        -- right. apply (elem_of_list_lookup_2 _ q). rewrite lookup_zip_with, list_lookup_fmap, Hq, Hk'. done.
        -- assert (E : (g_leaf sym <$> ks') !! q = (g_leaf sym <$> wk.*2) !! q) by (by rewrite El2).
           rewrite !list_lookup_fmap, Hk', Hq in E. cbn in E. by injection E as <-.
    + intros n k Hk. by eapply co_own.
    + destruct (co_root A wk n0 g f sl t t1 e sec h pr rs t' dp cp nodes root own g' ks' C HT1 HM Hf Hk1 Hn0 Hwk1 Hlv1 Hown1) as (H & H1 & H2).
      eexists root, _, _, H. split_and!; [reflexivity|done|]. intros n. rewrite H2. unfold sl. rewrite !fmap_cons, slots_fst.
      by rewrite zip_fst.
  - by eapply co_boxes.
Qed.

Lemma sym_step A ws t e sec h o ns : SInv A ws t e sec h → randoms o = TFresh <$> ns → NoDup ns →
  (∀ n, n ∈ ns → A !! n = None) →
  ∃ ms' A', step sym ws.*2 o = Some ms' ∧ extends A A' ∧ (∀ n, n ∉ ns → A' !! n = A !! n) ∧
    (∃ t' e' sec' h', SInv A' (zip (names_after ws o) ms') t' e' sec' h') ∧ boxes_ok A' (traffic ws o).
Proof.
  intros HI Hr Hnd Hns. pose proof (si_view _ _ _ _ _ _ HI) as HV.
  assert (Hskip : ∀ o', step sym ws.*2 o' = Some ws.*2 → names_after ws o' = ws.*1 → traffic ws o' = [] →
    ∃ ms' A', step sym ws.*2 o' = Some ms' ∧ extends A A' ∧ (∀ n, n ∉ ns → A' !! n = A !! n) ∧
    (∃ t' e' sec' h', SInv A' (zip (names_after ws o') ms') t' e' sec' h') ∧ boxes_ok A' (traffic ws o')).
  { intros o' E1 E2 E3. exists ws.*2, A. split; [done|]. split; [by intros ? ?|]. split; [done|]. split.
    - rewrite E2, zip_eta. by exists t, e, sec, h.
    - rewrite E3. intros s m x Hb. by apply elem_of_nil in Hb. }
  destruct o as [who fresh rs|who fresh rs cid joiner wr|who fresh rs target].
  all: destruct (ws !! who) as [[n0 g]|] eqn:Ew;
    [|apply Hskip; cbn [step names_after traffic]; rewrite ?list_lookup_fmap, Ew; done].
  all: assert (Eg : ws.*2 !! who = Some g) by (rewrite list_lookup_fmap, Ew; done).
  all: destruct (view_at _ _ _ _ _ _ _ _ HV Eg) as ((A1 & A2 & A3 & A4) & HH & Hgl & Hks & Hkh & Hgn & Hkn & Hlv).
  all: pose proof (elem_of_list_lookup_2 _ _ _ Ew) as Hin0.
  all: assert (Edel : (delete who ws).*2 = delete who ws.*2) by apply list_fmap_delete.
  all: assert (Hsl : ∀ n i, (n, i) ∈ slots ws → (n, i) ∈ (n0, g_leaf sym g) :: slots (delete who ws)).
  all: try (intros n i Hi; apply elem_slots in Hi as (k & Hk & ->); destruct (delete_in _ _ _ _ Ew Hk) as [[= -> ->]|Hk'];
         [by left|right; apply elem_slots; eauto]).
  all: assert (Hdin : ∀ p, p ∈ delete who ws → p ∈ ws) by (intros p; apply elem_of_delete_inv).
  - (* update *)
    destruct ns as [|f [|? ?]]; try done. cbn in Hr. injection Hr as ->.
    destruct (step_update sym sym_laws _ _ _ _ _ _ (TFresh f) rs _ HV Eg) as (t' & dp & cp & nodes & root & own & g' & ks' & C & EC & ES).
    rewrite <- Edel in C.
    destruct (sym_plain A ws t e sec h f rs n0 g (delete who ws) t [] t' dp cp nodes root own g' ks') as (K1 & (e' & sec' & h' & K2) & K3);
      try done.
    { apply Hns. by left. } { apply HV. } { rewrite Edel. by constructor. } { intros i. by rewrite Edel. }
    { eapply keys_ok_mono; [|exact Hsl|apply HI]. by intros ? ?. }
    eexists _, _. split; [exact ES|]. split; [exact K1|]. split.
    { intros n Hn. rewrite lookup_insert_ne; [done|]. intros <-. apply Hn. by left. }
    split.
    + cbn [names_after]. rewrite Ew. by exists t', e', sec', h'.
    + cbn [traffic]. rewrite Ew, EC. exact K3.
  - (* add *)
    destruct ns as [|f [|j [|? ?]]]; try done. cbn in Hr. injection Hr as -> ->.
    apply NoDup_cons in Hnd as [Hfj _]. rewrite elem_of_list_singleton in Hfj.
    destruct (step_add sym sym_laws _ _ _ _ _ _ (TFresh f) rs cid (TFresh j) wr _ HV Eg)
      as (sj & t1 & t' & dp & cp & nodes & root & own & g' & ks' & gj & w & lca & lsec & Hv & Had & HT1 & Hl1 & Hjg & Hjn & C
          & EC & ESl & (dl & Hd1 & Hd2 & Hd3) & (hv & Fv) & Ej & HHj & Hownj & ES).
    rewrite <- Edel in C. set (wk := delete who ws) in *.
    set (sl := (n0, g_leaf sym g) :: (j, sj) :: slots wk).
    set (Aj := <[j := λ _, {[ j ]}]> A : aud).
    assert (HAj : extends A Aj).
    { intros n a E. unfold Aj. rewrite lookup_insert_ne; [done|]. intros <-. rewrite (Hns j) in E; [done|]. right. by left. }
    assert (HMj : mono Aj).
    { intros n a E k. apply lookup_insert_Some in E as [[<- <-]|[_ E]]; [done|]. by eapply (si_mono _ _ _ _ _ _ HI). }
    assert (Hfn : Aj !! f = None).
    { unfold Aj. rewrite lookup_insert_ne by congruence. apply Hns. by left. }
    assert (Hhj : holders Aj (TFresh j) = Some {[ j ]}).
    { unfold holders, Aj. cbn [base]. by rewrite lookup_insert. }
    assert (Hn0 : (n0, g_leaf sym g) ∈ sl) by (by left).
    assert (Hwk1 : ∀ n k, (n, k) ∈ wk → (n, g_leaf sym k) ∈ sl).
    { intros n k Hk. right. right. apply elem_slots. eauto. }
    assert (Hlv1 : ∀ n i, (n, i) ∈ sl → live sym t1 i).
    { intros n i Hin. unfold sl in Hin. apply elem_of_cons in Hin as [[= -> ->]|Hin]; [apply Hl1; by left|].
      apply elem_of_cons in Hin as [[= -> ->]|Hin]; [apply Hl1; by right|]. apply Hl1. left. apply Hlv. right.
      rewrite <- Edel. apply elem_slots in Hin as (k & Hk & ->).
      apply elem_of_list_fmap_1. apply elem_of_list_fmap. by exists (n, k). }
    assert (Hown1 : ∀ n k, (n, k) ∈ wk → own_ok Aj n (g_own sym k)).
    { intros n k Hk. eapply own_ok_extends; [exact HAj|]. apply (si_own _ _ _ _ _ _ HI). by apply Hdin. }
    assert (Hk1 : keys_ok Aj t1 sl).
    { intros x nd s Hx Hs. destruct (decide (x = leaf_to_node sj)) as [->|Hxj].
      - rewrite (ad_leaf _ _ _ _ _ Had) in Hx. injection Hx as <-. cbn in Hs. injection Hs as <-.
        eexists. split; [exact Hhj|]. intros n ->%elem_of_singleton. exists sj. split; [right; by left|apply below_leaf_refl].
      - assert (Hold : ∃ nd0, get sym t x = Some nd0 ∧ kem_public sym nd0 = Some (Pk s)).
        { destruct nd as [l|pk um|]; cbn in Hs; [| |done].
          - rewrite (ad_rest _ _ _ _ _ Had x Hxj) in Hx. unfold gext in Hx.
            destruct (get sym t x) as [nd0|] eqn:Ex.
            + exists nd0. split; [done|]. destruct (decide (below x sj)).
              * destruct nd0 as [l0|pk0 um0|]; cbn in Hx; [by injection Hx as ->| |done].
                destruct (bool_decide (sj ∈ um0)); done.
              * by injection Hx as ->.
            + destruct (decide (below x sj)); destruct (_ <? _); done.
          - destruct (ad_parent sym t t1 sj _ (proj1 HV) Hv Had _ _ _ Hx) as (um0 & E & _). eauto. }
        destruct Hold as (nd0 & E1 & E2). destruct (si_keys _ _ _ _ _ _ HI x nd0 s E1 E2) as (H & H1 & H2). exists H.
        split; [by eapply holders_extends|]. intros n Hn. destruct (H2 n Hn) as (i & Hi & Hb). exists i. split; [|done].
        apply Hsl in Hi. apply elem_of_cons in Hi as [->|Hi]; [by left|right; by right]. }
    set (A' := <[f := path_aud n0 sl dp]> Aj).
    assert (HE' : extends Aj A') by (by eapply co_extends).
    eexists _, A'. split; [exact ES|]. split. { intros n a E. apply HE', HAj, E. }
    split.
    { intros n Hn. rewrite !not_elem_of_cons in Hn. unfold A', Aj. rewrite !lookup_insert_ne; [done| |]; naive_solver. }
    pose proof (cd_learns _ _ _ _ _ _ _ _ _ _ _ _ _ _ _ _ _ _ _ C) as F. apply Forall2_length in F. rewrite fmap_length in F.
    assert (Hlen : length wk.*1 = length ks') by (by rewrite fmap_length).
    pose proof (cd_leaves _ _ _ _ _ _ _ _ _ _ _ _ _ _ _ _ _ _ _ C) as El. rewrite !fmap_cons in El. injection El as El1 El2.
    split.
    + cbn [names_after]. rewrite Ew. cbn [zip zip_with]. fold wk.
      exists t', (e + 1), (derive_epoch sym root (es_init sym sec) hv), hv. split.
      * rewrite !fmap_cons. cbn [snd]. change (zip_with pair wk.*1 ks') with (zip wk.*1 ks'). rewrite zip_snd by done.
        split; [apply C|]. split; [done|]. split; [|split].
        -- pose proof (cd_HInv _ _ _ _ _ _ _ _ _ _ _ _ _ _ _ _ _ _ _ C) as FH. apply Forall_cons in FH as [FH1 FH2].
           constructor; [done|]. constructor; [by rewrite Ej|done].
        -- intros i. rewrite !fmap_cons, !elem_of_cons, El1, El2, Ej.
           rewrite (cd_live _ _ _ _ _ _ _ _ _ _ _ _ _ _ _ _ _ _ _ C), Hl1, Hlv, Edel. tauto.
        -- rewrite !fmap_cons, El1, El2, Ej, Edel. constructor; [|constructor; [|done]].
           ++ rewrite elem_of_cons. intros [?|?]; [by apply Hjg|done].
           ++ intros Hj. apply Hjn. apply Hlv. by right.
      * by eapply co_mono.
      * eapply (keys_ok_mono A' A' _ sl); [by intros ? ?| |by eapply co_keys].
        intros n i Hin. apply elem_slots. unfold sl in Hin.
        apply elem_of_cons in Hin as [[= -> ->]|Hin]; [exists g'; split; [by left|done]|].
        apply elem_of_cons in Hin as [[= -> ->]|Hin]; [exists gj; split; [right; by left|done]|].
        apply elem_slots in Hin as (k & Hk & ->). apply elem_of_list_lookup in Hk as [q Hq].
        destruct (lookup_lt_is_Some_2 ks' q) as [k' Hk']. { rewrite <- F. by eapply lookup_lt_Some. }
        exists k'. split.
        -- right. right. apply (elem_of_list_lookup_2 _ q). rewrite lookup_zip_with, list_lookup_fmap, Hq, Hk'. done.
        -- assert (E : (g_leaf sym <$> ks') !! q = (g_leaf sym <$> wk.*2) !! q) by (by rewrite El2).
           rewrite !list_lookup_fmap, Hk', Hq in E. cbn in E. by injection E as <-.
      * intros n k Hk. apply elem_of_cons in Hk as [E|Hk].
        { injection E as -> ->. eapply co_own; try done. by left. }
        apply elem_of_cons in Hk as [E|Hk].
        -- injection E as -> ->. intros x s Hs. destruct (Hownj x s Hs) as [->|(d & H1 & H2 & H3)].
           ++ eexists. split; [eapply holders_extends; [exact HE'|exact Hhj]|]. by apply elem_of_singleton.
           ++ eapply co_path; [exact H1|exact H3| |exact H2]. right. by left.
        -- eapply co_own; try done. by right.
      * destruct (co_root Aj wk n0 g f sl t t1 e sec h _ rs t' dp cp nodes root own g' ks' C HT1 HMj Hfn Hk1 Hn0 Hwk1 Hlv1 Hown1) as (H & H1 & H2).
        eexists root, _, _, H. split_and!; [reflexivity|done|]. intros n. rewrite H2. unfold sl. rewrite !fmap_cons, slots_fst.
        cbn [fst]. change (zip_with pair wk.*1 ks') with (zip wk.*1 ks'). by rewrite zip_fst.
    + cbn [traffic]. rewrite Ew, EC. cbn [snd].
      apply (boxes_ok_app A' [_]); [|by eapply co_boxes].
      intros s m x Hb Hx. apply elem_of_list_singleton in Hb. cbn in ESl. rewrite <- Hb in ESl. injection ESl as <- <-.
      apply elem_of_cons in Hx as [->|Hx].
      * right. destruct (co_path Aj n0 f sl dp dl lca lsec j sj Hd1 Hd3) as (H & H1 & H2); [right; by left|done|].
        exists {[ j ]}, H. split_and!; [eapply holders_extends; [exact HE'|exact Hhj]|done|]. by apply singleton_subseteq_l.
      * apply elem_of_list_singleton in Hx as ->. left.
        destruct (si_sec _ _ _ _ _ _ HI) as (r0 & i0 & h0 & H0 & -> & _). cbn. eauto.
  - (* remove *)
    destruct ns as [|f [|? ?]]; try done. cbn in Hr. injection Hr as ->.
    destruct (decide (target = g_leaf sym g ∨ num_leaves sym t <= target)) as [Hc|Hc].
    { assert (Eb : bool_decide (target = g_leaf sym g) || (num_leaves sym (g_tree sym g) <=? target) = true).
      { replace (g_tree sym g) with t by (by symmetry). apply orb_true_iff.
        destruct Hc as [->|Hc]; [left; by apply bool_decide_eq_true|right; by apply N.leb_le]. }
      apply Hskip; [by eapply step_remove_skip| |]; cbn [names_after traffic]; rewrite Ew, Eb; done. }
    apply Decidable.not_or in Hc as [Hc1 Hc2]. apply N.nle_gt in Hc2.
    destruct (step_remove sym sym_laws _ _ _ _ _ _ (TFresh f) rs target g HV Eg Hc1 Hc2)
      as (t1 & t' & dp & cp & nodes & root & own & g' & ks' & Hrm & HT1 & Hl1 & C & EC & ES).
    set (wk := filter (λ p : N * sgroup, g_leaf sym p.2 ≠ target) (delete who ws)).
    assert (Ewk : wk.*2 = filter (λ m, g_leaf sym m ≠ target) (delete who ws.*2)).
    { unfold wk. rewrite <- Edel. clear. induction (delete who ws) as [|[n k] l IH]; [done|].
      rewrite fmap_cons, !filter_cons. cbn [snd]. destruct (decide (g_leaf sym k ≠ target)); [|done]. rewrite fmap_cons. by f_equal. }
    rewrite <- Ewk in C.
    assert (Hkl : g_leaf sym <$> wk.*2 = filter (λ i, i ≠ target) (g_leaf sym <$> delete who ws.*2)).
    { rewrite Ewk. apply fmap_filter_leaf. }
    destruct (sym_plain A ws t e sec h f rs n0 g wk t1 [PRemove target] t' dp cp nodes root own g' ks') as (K1 & (e' & sec' & h' & K2) & K3);
      try done.
    { apply Hns. by left. }
    { intros p Hp. apply elem_of_list_filter in Hp as [_ Hp]. by apply Hdin. }
    { rewrite Hkl. constructor; [|by apply NoDup_filter]. intros Hin. apply elem_of_list_filter in Hin as [_ Hin]. done. }
    { intros i. rewrite Hkl, elem_of_list_filter, Hl1, Hlv. split.
      - intros [[->|?] ?]; tauto.
      - intros [->|[? ?]]; [|tauto]. split; [by left|]. intros E'. by apply Hc1. }
    { intros x nd s Hx Hs. apply (rm_some _ _ _ _ Hrm) in Hx as [Hx Hnb]; [|by intros ->].
      destruct (si_keys _ _ _ _ _ _ HI x nd s Hx Hs) as (H & H1 & H2). exists H. split; [done|].
      intros n Hn. destruct (H2 n Hn) as (i & Hi & Hb). exists i. split; [|done].
      apply Hsl in Hi. apply elem_of_cons in Hi as [->|Hi]; [by left|right].
      apply elem_slots in Hi as (k & Hk & ->). apply elem_slots. exists k. split; [|done]. unfold wk.
      apply elem_of_list_filter. split; [|done]. cbn. intros E; subst target; done. }
    eexists _, _. split; [exact ES|]. split; [exact K1|]. split.
    { intros n Hn. rewrite lookup_insert_ne; [done|]. intros <-. apply Hn. by left. }
    assert (Eb : bool_decide (target = g_leaf sym g) || (num_leaves sym (g_tree sym g) <=? target) = false).
    { replace (g_tree sym g) with t by (by symmetry). apply orb_false_iff. split; [by apply bool_decide_eq_false|by apply N.leb_gt]. }
    split.
    + cbn [names_after]. rewrite Ew, Eb. by exists t', e', sec', h'.
    + cbn [traffic]. rewrite Ew, Eb, EC. exact K3.
Qed.

Lemma sym_moments os : ∀ A ws t e sec h ns, SInv A ws t e sec h → concat (randoms <$> os) = TFresh <$> ns → NoDup ns →
  (∀ n, n ∈ ns → A !! n = None) →
  ∃ A', extends A A' ∧ mono A' ∧ (∀ n, n ∉ ns → A' !! n = A !! n) ∧ Forall (moment_ok A') (moments ws os) ∧
    length (moments ws os) = length os.
Proof.
  induction os as [|o os IH]; intros A ws t e sec h ns HI Hr Hnd Hns; cbn [moments].
  { exists A. split; [by intros ? ?|]. split; [apply HI|]. split; [done|]. split; [constructor|done]. }
  rewrite fmap_cons in Hr. cbn [concat] in Hr.
  assert (∃ n1 n2, ns = n1 ++ n2 ∧ randoms o = TFresh <$> n1 ∧ concat (randoms <$> os) = TFresh <$> n2) as (n1 & n2 & -> & E1 & E2).
  { exists (take (length (randoms o)) ns), (drop (length (randoms o)) ns). split; [by rewrite take_drop|].
    rewrite fmap_take, fmap_drop, <- Hr. split; [by rewrite take_app|by rewrite drop_app]. }
  apply NoDup_app in Hnd as (N1 & N2 & N3).
  destruct (sym_step A ws t e sec h o n1 HI E1 N1) as (ms' & A1 & ES & HE & Hsame & (t' & e' & sec' & h' & HI') & HB).
  { intros n Hn. apply Hns. apply elem_of_app. by left. }
  rewrite ES.
  destruct (IH A1 _ _ _ _ _ n2 HI' E2 N3) as (A' & HE' & HM' & Hsame' & HF & Hlen).
  { intros n Hn. rewrite Hsame; [apply Hns; apply elem_of_app; by right|]. intros Hn1. by apply (N2 n). }
  exists A'. split; [intros n a E; by apply HE', HE|]. split; [done|]. split.
  - intros n Hn. apply not_elem_of_app in Hn as [Hn1 Hn2]. rewrite Hsame', Hsame; done.
  - split; [|cbn [length]; by f_equal]. constructor; [|done]. eapply moment_ok_extends; [exact HE'|]. by eapply SInv_moment.
Qed.

Lemma sym_founded cid f0 : ∃ t e sec h,
  SInv {[ f0 := λ _, {[ f0 ]} ]} [(f0, create sym (key_package sym cid (TFresh f0)) (TFresh f0))] t e sec h.
Proof.
  set (A0 := {[ f0 := λ _, {[ f0 ]} ]} : aud).
  destruct (WInv_view sym _ (founded_ok sym cid (TFresh f0))) as (t & e & sec & h & HV).
  assert (Hh0 : ∀ s k, base s = Some (f0, k) → holders A0 s = Some {[ f0 ]}).
  { intros s k E. unfold holders, A0. by rewrite E, lookup_singleton. }
  exists t, e, sec, h.
  pose proof HV as (HT & Ha & _). unfold founded in Ha. apply Forall_cons in Ha as [(E1 & E2 & E3 & E4) _].
  split; [exact HV| | | |].
  - intros f a E k. apply lookup_singleton_Some in E as [<- <-]. done.
  - intros x nd s Hx Hs. rewrite <- E1 in Hx. cbn in Hx. unfold Tree_Model.get in Hx.
    destruct (N.to_nat x) as [|q] eqn:Eq; cbn in Hx; [|done]. injection Hx as <-. cbn in Hs. injection Hs as <-.
    eexists. split; [by apply (Hh0 _ 0%nat)|]. intros n ->%elem_of_singleton. exists 0. split; [by left|].
    replace x with (leaf_to_node 0) by (unfold leaf_to_node; lia). apply below_leaf_refl.
  - intros n g Hg. apply elem_of_list_singleton in Hg as [= -> ->]. intros x s Hs. cbn in Hs.
    pose proof (proj1 (lookup_singleton_Some _ _ _ _) Hs) as [_ <-].
    eexists. split; [by apply (Hh0 _ 0%nat)|]. by apply elem_of_singleton.
  - rewrite <- E3. eexists (TDerive (TFresh f0)), _, _, {[ f0 ]}. split; [reflexivity|]. split; [by apply (Hh0 _ 1%nat)|].
    intros n. cbn. rewrite elem_of_singleton, elem_of_list_singleton. done.
Qed.
Lemma sym_history cid f0 os ns : honest f0 os ns →
  ∃ A, mono A ∧ (∀ n, n ∉ f0 :: ns → A !! n = None) ∧ Forall (moment_ok A) (history cid f0 os) ∧
    length (history cid f0 os) = S (length os).
Proof.
  intros [Hr Hnd]. apply NoDup_cons in Hnd as [Hf0 Hnd].
  destruct (sym_founded cid f0) as (t & e & sec & h & HI).
  destruct (sym_moments os _ _ t e sec h ns HI Hr Hnd) as (A & HE & HM & Hsame & HF & Hlen).
  { intros n Hn. apply lookup_singleton_ne. by intros ->. }
  exists A. split; [done|]. split.
  - intros n Hn. apply not_elem_of_cons in Hn as [H1 H2]. rewrite Hsame by done. by apply lookup_singleton_ne.
  - split; [|unfold history; cbn [length]; by f_equal]. constructor; [|exact HF]. eapply moment_ok_extends; [exact HE|].
    eapply SInv_moment; [exact HI|]. intros s m x Hb. by apply elem_of_nil in Hb.
Qed.

(** the secrets of a moment are known only if a bad member is present *)
Lemma secrecy cid f0 os ns bad mo n g s : honest f0 os ns → mo ∈ history cid f0 os → (n, g) ∈ at_members mo →
  s ∈ live_secrets g → known (history cid f0 os) bad (f0 :: ns) s →
  ∃ k g', (k, g') ∈ at_members mo ∧ bad k.
Proof.
  intros Hh Hmo Hg Hs Hk. destruct (sym_history cid f0 os ns Hh) as (A & HM & HU & HF & _).
  apply (known_good A _ _ _ _ HM HU HF) in Hk. rewrite Forall_forall in HF.
  destruct (mo_sec _ _ (HF mo Hmo)) as (root & init & h & H & E1 & E2 & E3).
  assert (Hr : good A bad root).
  { unfold live_secrets in Hs. rewrite (E1 n g Hg) in Hs.
    cbn [derive_epoch es_epoch es_encryption es_confirmation es_membership sym epoch_kdf expand] in Hs.
    repeat (apply elem_of_cons in Hs as [->|Hs]; [exact Hk|]). by apply elem_of_nil in Hs. }
  rewrite good_base in Hr by (unfold holders in E2; destruct (base root); [eauto|done]).
  unfold reach in Hr. rewrite E2 in Hr. destruct Hr as (k & Hr & Hb). apply E3, elem_of_list_fmap in Hr as ([k' g'] & -> & Hr). eauto.
Qed.
(** the secret behind a key of the tree is known only if a bad member is below it *)
Lemma key_secrecy cid f0 os ns bad mo n g x nd s : honest f0 os ns → mo ∈ history cid f0 os → (n, g) ∈ at_members mo →
  get sym (g_tree sym g) x = Some nd → kem_public sym nd = Some (Pk s) → known (history cid f0 os) bad (f0 :: ns) s →
  ∃ k g', (k, g') ∈ at_members mo ∧ bad k ∧ below x (g_leaf sym g').
Proof.
  intros Hh Hmo Hg Hx Hs Hk. destruct (sym_history cid f0 os ns Hh) as (A & HM & HU & HF & _).
  apply (known_good A _ _ _ _ HM HU HF) in Hk. rewrite Forall_forall in HF.
  destruct (mo_key _ _ (HF mo Hmo) n g x nd s Hg Hx Hs) as (H & E1 & E2).
  rewrite good_base in Hk by (unfold holders in E1; destruct (base s); [eauto|done]).
  unfold reach in Hk. rewrite E1 in Hk. destruct Hk as (k & Hk & Hb). destruct (E2 k Hk) as (g' & H1 & H2). eauto.
Qed.

(** ** Names *)
Lemma zip_fst_take {X Y} (l : list X) : ∀ l' : list Y, (zip l l').*1 = take (length l') l.
Proof. induction l as [|a l IH]; intros [|b l']; try done. cbn [zip zip_with fmap list_fmap length take]. f_equal. apply IH. Qed.
Lemma names_step (ws : list (N * sgroup)) o ns (ms' : list sgroup) : NoDup ws.*1 → randoms o = TFresh <$> ns → NoDup ns → (∀ n, n ∈ ns → n ∉ ws.*1) →
  NoDup (zip (names_after ws o) ms').*1 ∧ ∀ n, n ∈ (zip (names_after ws o) ms').*1 → n ∈ ws.*1 ∨ n ∈ ns.
Proof.
  intros Hnd Hr Hns Hd. rewrite zip_fst_take.
  assert (H : NoDup (names_after ws o) ∧ ∀ n, n ∈ names_after ws o → n ∈ ws.*1 ∨ n ∈ ns).
  { destruct o as [who fresh rs|who fresh rs cid joiner wr|who fresh rs target]; cbn [names_after];
      (destruct (ws !! who) as [[n0 g]|] eqn:Ew; [|split; [done|by left]]);
      pose proof (delete_Permutation _ _ _ Ew) as Hp; assert (Hp1 := fmap_Permutation fst _ _ Hp);
      rewrite fmap_cons in Hp1; cbn [fst] in Hp1.
    - split; [by rewrite <- Hp1|]. intros n Hn. left. by rewrite Hp1.
    - destruct ns as [|f [|j [|? ?]]]; try done. cbn in Hr. injection Hr as -> ->.
      assert (Hpj : n0 :: j :: (delete who ws).*1 ≡ₚ j :: ws.*1) by (rewrite Hp1; apply Permutation_swap).
      split.
      + rewrite Hpj. constructor; [|done]. apply Hd. right. by left.
      + intros n Hn. rewrite Hpj in Hn. apply elem_of_cons in Hn as [->|Hn]; [right; right; by left|by left].
    - destruct (_ || _); [split; [done|by left]|]. rewrite Hp1 in Hnd. apply NoDup_cons in Hnd as [N1 N2].
      assert (Hsub : ∀ n, n ∈ (filter (λ p : N * sgroup, g_leaf sym p.2 ≠ target) (delete who ws)).*1 → n ∈ (delete who ws).*1).
      { intros n Hn. apply elem_of_list_fmap in Hn as (p & -> & Hp'). apply elem_of_list_filter in Hp' as [_ Hp'].
        by apply elem_of_list_fmap_1. }
      split.
      + constructor; [by intros ?%Hsub|]. clear -N2. induction (delete who ws) as [|p l IH]; [constructor|].
        rewrite fmap_cons in N2. apply NoDup_cons in N2 as [H1 H2]. rewrite filter_cons. destruct (decide _); [|by apply IH].
        rewrite fmap_cons. constructor; [|by apply IH]. intros Hn. apply H1.
        apply elem_of_list_fmap in Hn as (q & -> & Hq). apply elem_of_list_filter in Hq as [_ Hq]. by apply elem_of_list_fmap_1.
      + intros n Hn. left. rewrite Hp1. apply elem_of_cons in Hn as [->|Hn]; [by left|right; by apply Hsub]. }
  destruct H as [H1 H2]. rewrite <- (take_drop (length ms') (names_after ws o)) in H1. apply NoDup_app in H1 as [H1 _].
  split; [done|]. intros n Hn. apply H2. rewrite <- (take_drop (length ms') (names_after ws o)). apply elem_of_app. by left.
Qed.
Lemma names_later n os : ∀ ws ns mo, NoDup ws.*1 → concat (randoms <$> os) = TFresh <$> ns → NoDup ns → (∀ n, n ∈ ns → n ∉ ws.*1) →
  n ∉ ws.*1 → n ∉ ns → mo ∈ moments ws os → n ∉ (at_members mo).*1.
Proof.
  induction os as [|o os IH]; intros ws ns mo Hnd Hr Hns Hd Hn1 Hn2; cbn [moments]; [by intros ?%elem_of_nil|].
  destruct (step sym ws.*2 o) as [ms'|]; [|by intros ?%elem_of_nil].
  rewrite fmap_cons in Hr. cbn [concat] in Hr.
  assert (∃ n1 n2, ns = n1 ++ n2 ∧ randoms o = TFresh <$> n1 ∧ concat (randoms <$> os) = TFresh <$> n2) as (n1 & n2 & -> & E1 & E2).
  { exists (take (length (randoms o)) ns), (drop (length (randoms o)) ns). split; [by rewrite take_drop|].
    rewrite fmap_take, fmap_drop, <- Hr. split; [by rewrite take_app|by rewrite drop_app]. }
  apply NoDup_app in Hns as (N1 & N2 & N3). apply not_elem_of_app in Hn2 as [Hn2 Hn3].
  destruct (names_step ws o n1 ms' Hnd E1 N1) as [M1 M2]. { intros k Hk. apply Hd. apply elem_of_app. by left. }
  assert (Hn' : n ∉ (zip (names_after ws o) ms').*1) by (intros [?|?]%M2; done).
  intros [->|Hmo]%elem_of_cons; [done|]. revert Hmo. apply (IH _ n2); try done.
  intros k Hk [?|?]%M2; [|by eapply N2]. eapply Hd; [|done]. apply elem_of_app. by right.
Qed.
Lemma moments_at os1 : ∀ ws b os2 mo ns, NoDup ws.*1 → concat (randoms <$> (os1 ++ os2)) = TFresh <$> ns → NoDup ns →
  (∀ n, n ∈ ns → n ∉ ws.*1) →
  (mk_moment ws b :: moments ws (os1 ++ os2)) !! length os1 = Some mo →
  NoDup (at_members mo).*1 ∧
  ∃ ns2, concat (randoms <$> os2) = TFresh <$> ns2 ∧ NoDup ns2 ∧ (∀ n, n ∈ ns2 → n ∈ ns ∧ n ∉ (at_members mo).*1) ∧
  ∃ b', drop (length os1) (mk_moment ws b :: moments ws (os1 ++ os2)) = mk_moment (at_members mo) b' :: moments (at_members mo) os2.
Proof.
  induction os1 as [|o os1 IH]; intros ws b os2 mo ns Hnd Hr Hns Hd.
  { cbn. intros [= <-]. cbn. split; [done|]. exists ns. split_and!; [done|done| |by exists b]. intros n Hn. split; [done|by apply Hd]. }
  cbn [app length moments]. intros Hl. change ((mk_moment ws b :: ?l) !! S ?k) with (l !! k) in Hl.
  destruct (step sym ws.*2 o) as [ms'|]; [|done].
  cbn [app] in Hr. rewrite fmap_cons in Hr. cbn [concat] in Hr.
  assert (∃ n1 n2, ns = n1 ++ n2 ∧ randoms o = TFresh <$> n1 ∧ concat (randoms <$> (os1 ++ os2)) = TFresh <$> n2) as (n1 & n2 & -> & E1 & E2).
  { exists (take (length (randoms o)) ns), (drop (length (randoms o)) ns). split; [by rewrite take_drop|].
    rewrite fmap_take, fmap_drop, <- Hr. split; [by rewrite take_app|by rewrite drop_app]. }
  apply NoDup_app in Hns as (N1 & N2 & N3).
  destruct (names_step ws o n1 ms' Hnd E1 N1) as [M1 M2]. { intros k Hk. apply Hd. apply elem_of_app. by left. }
  destruct (IH (zip (names_after ws o) ms') (traffic ws o) os2 mo n2 M1 E2 N3) as (K1 & ns2 & K2 & K3 & K4 & b' & K5); [|exact Hl|].
  { intros k Hk [?|?]%M2; [|by eapply N2]. eapply Hd; [|done]. apply elem_of_app. by right. }
  split; [done|]. exists ns2. split_and!; [done|done| |].
  - intros n Hn. destruct (K4 n Hn). split; [|done]. apply elem_of_app. by right.
  - exists b'. exact K5.
Qed.

(** a removed member is gone for good *)
Lemma removed_gone cid f0 os1 who f rs target os2 ns mo n g c k mo' :
  let os := os1 ++ OpRemove sym who f rs target :: os2 in
  honest f0 os ns → history cid f0 os !! length os1 = Some mo →
  (n, g) ∈ at_members mo → g_leaf sym g = target → at_members mo !! who = Some c → g_leaf sym c.2 ≠ target →
  target < num_leaves sym (g_tree sym c.2) →
  (length os1 < k)%nat → history cid f0 os !! k = Some mo' → n ∉ (at_members mo').*1.
Proof.
  intros os [Hr Hnd] Hl Hg Ht Hc Hne Hlt Hk Hk'. apply NoDup_cons in Hnd as [Hf0 Hnd]. unfold history in Hl, Hk'.
  set (ws0 := [(f0, create sym (key_package sym cid (TFresh f0)) (TFresh f0))]) in *.
  destruct (moments_at os1 ws0 [] (OpRemove sym who f rs target :: os2) mo ns) as (K1 & ns2 & K2 & K3 & K4 & b' & K5).
  { repeat constructor. by intros ?%elem_of_nil. } { done. } { done. }
  { intros m Hm Hin. apply elem_of_list_singleton in Hin as ->. done. } { exact Hl. }
  fold os in K5. replace k with (length os1 + S (k - S (length os1)))%nat in Hk' by lia. rewrite <- lookup_drop, K5 in Hk'.
  change ((mk_moment _ _ :: ?l) !! S ?q) with (l !! q) in Hk'. cbn [moments] in Hk'.
  destruct (step sym (at_members mo).*2 _) as [ms'|]; [|done].
  rewrite fmap_cons in K2. cbn [concat] in K2.
  assert (∃ n1 n2, ns2 = n1 ++ n2 ∧ randoms (OpRemove sym who f rs target) = TFresh <$> n1 ∧ concat (randoms <$> os2) = TFresh <$> n2)
    as (n1 & n2 & -> & E1 & E2).
  { exists (take 1 ns2), (drop 1 ns2). split; [by rewrite take_drop|]. by rewrite fmap_take, fmap_drop, <- K2. }
  apply NoDup_app in K3 as (N1 & N2 & N3).
  destruct (names_step (at_members mo) _ n1 ms' K1 E1 N1) as [M1 M2]. { intros m Hm. apply K4. apply elem_of_app. by left. }
  assert (Hgone : n ∉ (zip (names_after (at_members mo) (OpRemove sym who f rs target)) ms').*1).
  { rewrite zip_fst_take. intros Hin.
    assert (Hin' : n ∈ names_after (at_members mo) (OpRemove sym who f rs target)).
    { rewrite <- (take_drop (length ms') (names_after _ _)). apply elem_of_app. by left. }
    clear Hin M1 M2. cbn [names_after] in Hin'. destruct c as [n0 c]. cbn [snd] in *. rewrite Hc in Hin'.
    replace (_ || _) with false in Hin'.
    2:{ symmetry. apply orb_false_iff. split; [apply bool_decide_eq_false; congruence|apply N.leb_gt; done]. }
    assert (Hu : ∀ g', (n, g') ∈ at_members mo → g' = g).
    { intros g' Hg'. apply elem_of_list_lookup in Hg' as [a Ha]. apply elem_of_list_lookup in Hg as [b Hb].
      assert (a = b) as ->.
      { eapply (NoDup_lookup (at_members mo).*1 _ _ n K1); rewrite list_lookup_fmap; [by rewrite Ha|by rewrite Hb]. }
      congruence. }
    apply elem_of_cons in Hin' as [->|Hin'].
    - apply Hne. rewrite (Hu c); [done|]. by eapply elem_of_list_lookup_2.
    - apply elem_of_list_fmap in Hin' as ([m g'] & -> & Hin'). apply elem_of_list_filter in Hin' as [Hl' Hin'].
      apply Hl'. cbn [fst snd] in *. rewrite (Hu g'); [done|]. by eapply elem_of_delete_inv. }
  assert (Hnn : n ∉ n2).
  { intros Hn. destruct (K4 n) as [_ Hc']; [apply elem_of_app; by right|]. apply Hc'. apply elem_of_list_fmap. by exists (n, g). }
  apply elem_of_list_lookup_2 in Hk'. apply elem_of_cons in Hk' as [->|Hk']; [done|].
  revert Hk'. apply (names_later n os2 _ n2); try done.
  intros m Hm [?|?]%M2; [|by eapply N2]. destruct (K4 m) as [_ Hc']; [apply elem_of_app; by right|done].
Qed.

(** the state of the group at a moment *)
Lemma moments_view_aux os1 : ∀ A ws b t e sec h os2 ns mo, SInv A ws t e sec h → concat (randoms <$> (os1 ++ os2)) = TFresh <$> ns → NoDup ns →
  (∀ n, n ∈ ns → A !! n = None) → (mk_moment ws b :: moments ws (os1 ++ os2)) !! length os1 = Some mo →
  ∃ t e sec h, view sym (at_members mo).*2 t e sec h.
Proof.
  induction os1 as [|o os1 IH]; intros A ws b t e sec h os2 ns mo HI Hr Hnd Hns.
  { cbn. intros [= <-]. exists t, e, sec, h. apply HI. }
  cbn [app length moments]. intros Hl. change ((mk_moment ws b :: ?l) !! S ?k) with (l !! k) in Hl.
  cbn [app] in Hr. rewrite fmap_cons in Hr. cbn [concat] in Hr.
  assert (∃ n1 n2, ns = n1 ++ n2 ∧ randoms o = TFresh <$> n1 ∧ concat (randoms <$> (os1 ++ os2)) = TFresh <$> n2) as (n1 & n2 & -> & E1 & E2).
  { exists (take (length (randoms o)) ns), (drop (length (randoms o)) ns). split; [by rewrite take_drop|].
    rewrite fmap_take, fmap_drop, <- Hr. split; [by rewrite take_app|by rewrite drop_app]. }
  apply NoDup_app in Hnd as (N1 & N2 & N3).
  destruct (sym_step A ws t e sec h o n1 HI E1 N1) as (ms' & A1 & ES & HE & Hsame & (t' & e' & sec' & h' & HI') & HB).
  { intros n Hn. apply Hns. apply elem_of_app. by left. }
  rewrite ES in Hl. eapply (IH A1 _ _ _ _ _ _ os2 n2 mo HI' E2 N3); [|exact Hl].
  intros n Hn. rewrite Hsame; [apply Hns; apply elem_of_app; by right|]. intros Hn1. by apply (N2 n).
Qed.
Lemma moments_view cid f0 os1 os2 ns mo : honest f0 (os1 ++ os2) ns → history cid f0 (os1 ++ os2) !! length os1 = Some mo →
  ∃ t e sec h, view sym (at_members mo).*2 t e sec h.
Proof.
  intros [Hr Hnd] Hl. apply NoDup_cons in Hnd as [Hf0 Hnd]. destruct (sym_founded cid f0) as (t & e & sec & h & HI).
  eapply (moments_view_aux os1); [exact HI|exact Hr|done| |exact Hl]. intros n Hn. apply lookup_singleton_ne. by intros ->.
Qed.
