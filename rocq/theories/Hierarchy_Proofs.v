(** Proofs about the command hierarchy. *)
From Coq Require Import ZifyBool ZifyNat ZifyN.
From stdpp Require Import prelude gmap.
From Verif Require Import Types_Model Types_Proofs Hierarchy_Model Hierarchy_Spec.
Local Open Scope N_scope.

Section Generic.
  Context (H : hprims) (L : hlaws H).

  Lemma derive_root s pol p : derive_descendant H (h_root H s pol) p = Some (mk_hmember p (foldl (keyed_hash H) s p) pol).
  Proof using.
    unfold derive_descendant, derive_descendant_secret, h_root. cbn [hm_path hm_secret hm_policy].
    replace (is_ancestor_of cp_root p) with true by (symmetry; apply ancestor_iff; by exists p). by rewrite drop_0.
  Qed.

  Lemma seal_open s pol pol' p x ma mp flat flat' key r m e :
    derive_descendant H (h_root H s pol) p = Some ma → derive_descendant H (h_root H s pol') (p ++ x) = Some mp →
    seal_message H mp flat key r m = Some e → open_message H ma flat' e = Some m.
  Proof using L.
    rewrite !derive_root. intros [= <-] [= <-]. unfold seal_message, env_seal. cbn [hm_path hm_secret hm_policy].
    destruct (hl_k H L (foldl (keyed_hash H) s (p ++ x)) r key) as (b & Eb & Ob). rewrite Eb. intros He.
    assert (E : ev_sender H e = p ++ x ∧ ev_body H e = bseal H key m ∧ ev_hier H e = b).
    { destruct pol', flat; try done; by injection He as <-. }
    destruct E as (E1 & E2 & E3). unfold open_message. cbn [hm_path hm_secret]. rewrite E1.
    assert (Ea : is_ancestor_of p (p ++ x) = true) by (apply ancestor_iff; by exists x). rewrite Ea.
    unfold open_as_superior, derive_descendant_secret. rewrite E1, Ea. cbn [negb]. rewrite drop_app.
    rewrite <- foldl_app, E3, Ob, E2. apply (hl_b H L).
  Qed.

  Lemma seal_total mp flat key r m : (hm_policy mp = BroadcastAudit → is_Some flat) → ∃ e, seal_message H mp flat key r m = Some e.
  Proof using L.
    intros Hf. unfold seal_message, env_seal. destruct (hl_k H L (hm_secret mp) r key) as (b & -> & _).
    destruct (hm_policy mp); [eauto|]. destruct Hf as [f ->]; [done|]. eauto.
  Qed.

  Lemma audit_open ma mp f key r m e : hm_policy mp = BroadcastAudit →
    seal_message H mp (Some f) key r m = Some e → is_ancestor_of (hm_path ma) (hm_path mp) = false →
    open_message H ma (Some f) e = Some m.
  Proof using L.
    intros Hp He Ha. unfold seal_message, env_seal in He. rewrite Hp in He. destruct (kseal _ _ _ _); [|done]. injection He as <-.
    unfold open_message. cbn [ev_sender]. rewrite Ha. unfold open_as_member. cbn [ev_flat ev_body].
    rewrite (hl_f H L). apply (hl_b H L).
  Qed.

  Lemma refused ma mp flat flat' key r m e : seal_message H mp flat key r m = Some e →
    is_ancestor_of (hm_path ma) (hm_path mp) = false → hm_policy mp = SuperiorOnly ∨ flat' = None → open_message H ma flat' e = None.
  Proof using.
    intros He Ha Hor. unfold seal_message, env_seal in He. destruct (kseal _ _ _ _); [|done].
    assert (E : ev_sender H e = hm_path mp ∧ (hm_policy mp = SuperiorOnly → ev_flat H e = None)).
    { destruct (hm_policy mp), flat; try done; by injection He as <-. }
    destruct E as [E1 E2]. unfold open_message. rewrite E1, Ha. destruct Hor as [Hp| ->]; [|done].
    destruct flat'; [|done]. unfold open_as_member. by rewrite E2.
  Qed.
End Generic.

(** ** Terms *)
Fixpoint strip (t : hterm) : hterm * command_path :=
  match t with
  | HChild u seg => let '(b, p) := strip u in (b, p ++ [seg])
  | _ => (t, [])
  end.
Lemma strip_fold b p q x : strip b = (x, q) → strip (foldl HChild b p) = (x, q ++ p).
Proof.
  revert b q. induction p as [|s p IH]; intros b q E; cbn [foldl]; [by rewrite app_nil_r|].
  rewrite (IH (HChild b s) (q ++ [s])); [by rewrite <- app_assoc|]. cbn [strip]. by rewrite E.
Qed.
Lemma strip_unit g p : strip (unit_secret g p) = (HRoot g, p).
Proof. by apply (strip_fold (HRoot g) p []). Qed.
Lemma unit_inj g p g' p' : unit_secret g p = unit_secret g' p' → g = g' ∧ p = p'.
Proof. intros E. pose proof (strip_unit g p) as E1. rewrite E, strip_unit in E1. by injection E1. Qed.

(** ** The invariant *)
Definition asg (pol : read_policy) (g : N) (p : command_path) : hmember hterm := mk_hmember p (unit_secret g p) pol.

Record HW (pol : read_policy) (w : hworld) (b : book) : Prop := mk_HW {
  hw_o : ∃ lf, hw_owner w = mk_hstate hsym true lf (Command pol) (Some (asg pol (bk_gen b) [])) (bk_ranks b) (Some (HGroup (bk_flat b)));
  hw_m : hw_members w = map_imap (λ cid n, Some
    (mk_hstate hsym false (HLeaf n) (Command pol) (asg pol (bk_gen b) <$> bk_ranks b !! cid) ∅ (Some (HGroup (bk_flat b))))) (bk_joined b);
  hw_a : ∀ a, WAssign a ∈ hw_wire w ↔ ∃ n g p, (n, g, p) ∈ bk_grants b ∧ a = ABox (LeafPk (HLeaf n)) (asg pol g p) }.

(** the state of a member according to the book *)
Definition mstate (pol : read_policy) (b : book) (cid n : N) : hstate hsym :=
  mk_hstate hsym false (HLeaf n) (Command pol) (asg pol (bk_gen b) <$> bk_ranks b !! cid) ∅ (Some (HGroup (bk_flat b))).
Lemma hw_lookup pol w b cid : HW pol w b → hw_members w !! cid = mstate pol b cid <$> bk_joined b !! cid.
Proof. intros HI. rewrite (hw_m _ _ _ HI), map_lookup_imap. by destruct (bk_joined b !! cid). Qed.

Lemma derive_asg pol g p : derive_descendant hsym (asg pol g []) p = Some (asg pol g p).
Proof. apply (derive_root hsym (HRoot g) pol p). Qed.

Lemma receive_ok ms cid st n pol g p : ms !! cid = Some st → hs_leaf hsym st = HLeaf n → hs_owner hsym st = false →
  receive ms cid (ABox (LeafPk (HLeaf n)) (asg pol g p)) =
  <[cid := mk_hstate hsym false (HLeaf n) (Command pol) (Some (asg pol g p)) (hs_ranks hsym st) (hs_flat hsym st)]> ms.
Proof.
  intros E El Eo. unfold receive. rewrite E. unfold apply_assignment. rewrite El, Eo. cbn.
  by rewrite bool_decide_true.
Qed.

Lemma leaf_of_ok pol w b cid : HW pol w b → leaf_of_world w cid = LeafPk ∘ HLeaf <$> bk_joined b !! cid.
Proof. intros HI. unfold leaf_of_world. rewrite (hw_lookup _ _ _ _ HI). by destruct (bk_joined b !! cid). Qed.

(** what [reassign] does, and what the members make of it *)
Definition regrant (pol : read_policy) (joined : gmap N N) (g : N) (l : list (N * command_path)) : list (N * hasg) :=
  omap (λ '(cid, p), (λ n, (cid, ABox (LeafPk (HLeaf n)) (asg pol g p))) <$> joined !! cid) l.
Lemma reassign_ok pol g (joined : gmap N N) leaf_of l : (∀ cid, leaf_of cid = LeafPk ∘ HLeaf <$> joined !! cid) →
  reassign hsym (asg pol g []) leaf_of (λ _, tt) l = Some (regrant pol joined g l).
Proof.
  intros Hl. induction l as [|[cid p] l IH]; [done|]. cbn [reassign]. rewrite Hl, IH. unfold regrant. cbn [omap list_omap].
  destruct (joined !! cid) as [n|]; cbn; [|done]. by rewrite derive_asg.
Qed.
Lemma receive_all pol g (joined : gmap N N) (l : list (N * command_path)) : ∀ ms : gmap N (hstate hsym), NoDup l.*1 →
  (∀ cid, (λ st, (hs_owner hsym st, hs_leaf hsym st, hs_ranks hsym st)) <$> ms !! cid = (λ n, (false, HLeaf n, ∅)) <$> joined !! cid) →
  ∀ cid, foldl (λ ms '(c, b), receive ms c b) ms (regrant pol joined g l) !! cid =
    match ms !! cid, list_to_map (M := gmap N command_path) l !! cid with
    | Some st, Some p => Some (mk_hstate hsym false (hs_leaf hsym st) (Command pol) (Some (asg pol g p)) (hs_ranks hsym st) (hs_flat hsym st))
    | o, _ => o
    end.
Proof.
  induction l as [|[c p] l IH]; intros ms Hnd Hms cid.
  - cbn. by destruct (ms !! cid).
  - rewrite fmap_cons in Hnd. cbn [fst] in Hnd. apply NoDup_cons in Hnd as [Hc Hnd].
    unfold regrant. cbn [omap list_omap]. pose proof (Hms c) as Hmc.
    destruct (joined !! c) as [n|] eqn:Ej; cbn [fmap option_fmap option_map] in Hmc |- *.
    + destruct (ms !! c) as [st|] eqn:Es; [|done]. cbn in Hmc. injection Hmc as Ho Hlf Hrk.
      cbn [foldl]. rewrite (receive_ok ms c st n pol g p Es Hlf Ho).
      set (st' := mk_hstate hsym false _ _ _ _ _). fold (regrant pol joined g l).
      rewrite (IH (<[c:=st']> ms) Hnd).
      2:{ intros d. destruct (decide (d = c)) as [->|Hd]; [|by rewrite lookup_insert_ne].
          rewrite lookup_insert, Ej. cbn. by rewrite Hrk. }
      destruct (decide (cid = c)) as [->|Hd].
      * rewrite lookup_insert. cbn [list_to_map foldr]. rewrite lookup_insert, Es.
        rewrite (not_elem_of_list_to_map_1 l c Hc). unfold st'. by rewrite Hlf.
      * rewrite lookup_insert_ne by done. cbn [list_to_map foldr]. rewrite lookup_insert_ne by done. done.
    + assert (Es : ms !! c = None) by (by destruct (ms !! c)).
      fold (regrant pol joined g l). rewrite (IH ms Hnd Hms). destruct (decide (cid = c)) as [->|Hd].
      * by rewrite Es.
      * cbn [list_to_map foldr]. by rewrite lookup_insert_ne.
Qed.

Lemma regrant_elem pol joined g l a : a ∈ (regrant pol joined g l).*2 ↔ ∃ n cid p, joined !! cid = Some n ∧ (cid, p) ∈ l ∧ a = ABox (LeafPk (HLeaf n)) (asg pol g p).
Proof.
  unfold regrant. rewrite elem_of_list_fmap. split.
  - intros ([c a'] & -> & Hin). apply elem_of_list_omap in Hin as ([c' p] & H1 & H2).
    destruct (joined !! c') as [n|] eqn:E; [|done]. cbn in H2. injection H2 as <- <-. by exists n, c', p.
  - intros (n & cid & p & E & Hin & ->). exists (cid, ABox (LeafPk (HLeaf n)) (asg pol g p)). split; [done|].
    apply elem_of_list_omap. exists (cid, p). split; [done|]. cbn. by rewrite E.
Qed.

(** the envelope of a sender *)
Definition env_of (pol : read_policy) (g : N) (p : command_path) (flat key : N) (text : list N) : envelope hsym :=
  mk_envelope hsym p (Body (HKey key) text) (KBox (NodePk (unit_secret g p)) (HKey key))
    (match pol with SuperiorOnly => None | BroadcastAudit => Some (FWrap (HGroup flat) (HKey key)) end).

Lemma hstep_ok pol w b o : HW pol w b → HW pol (hstep w o) (bk_step b o) ∧
  ∀ e, WMsg e ∈ hw_wire (hstep w o) ↔ WMsg e ∈ hw_wire w ∨
    match o with
    | HSend who key text => ∃ p, unit_of b who = Some p ∧ e = env_of pol (bk_gen b) p (bk_flat b) key text
    | _ => False
    end.
Proof.
  intros HI. pose proof HI as [(lf & Ho) Hm Ha]. pose proof (λ cid, hw_lookup pol w b cid HI) as Hlk.
  destruct o as [cid n|cid f|cid p|cid seg root f|who key text]; cbn [hstep].
  - (* join *) unfold assignment_for_joiner. rewrite Ho. cbn [hs_self hs_ranks hs_mode hs_flat].
    destruct (bk_ranks b !! cid) as [p|] eqn:Er.
    + rewrite derive_asg. cbn [aseal hsym]. split.
      * split; cbn [hw_owner hw_members hw_wire bk_step bk_gen bk_flat bk_ranks bk_joined bk_grants].
        -- by exists lf.
        -- erewrite receive_ok; [|apply lookup_insert|done|done]. cbn [hs_ranks hs_flat].
           apply map_eq. intros c. rewrite map_lookup_imap. destruct (decide (c = cid)) as [->|Hc].
           ++ rewrite !lookup_insert. cbn. by rewrite Er.
           ++ rewrite !lookup_insert_ne by done. rewrite Hlk. by destruct (bk_joined b !! c).
        -- intros a. rewrite elem_of_cons, Ha. unfold grant. cbn [bk_joined bk_ranks bk_gen]. rewrite lookup_insert, Er. split.
           ++ intros [[= ->]|(n' & g & q & H1 & ->)].
              ** exists n, (bk_gen b), p. split; [by left|done].
              ** exists n', g, q. split; [by right|done].
           ++ intros (n' & g & q & H1 & ->). apply elem_of_cons in H1 as [[= -> -> ->]|H1]; [by left|right]. by exists n', g, q.
      * intros e. cbn [hw_wire]. rewrite elem_of_cons. split; [intros [?|?]; [done|by left]|intros [?|[]]; by right].
    + split.
      * split; cbn [hw_owner hw_members hw_wire bk_step bk_gen bk_flat bk_ranks bk_joined bk_grants].
        -- by exists lf.
        -- apply map_eq. intros c. rewrite map_lookup_imap. destruct (decide (c = cid)) as [->|Hc].
           ++ rewrite !lookup_insert. cbn. by rewrite Er.
           ++ rewrite !lookup_insert_ne by done. rewrite Hlk. by destruct (bk_joined b !! c).
        -- intros a. rewrite Ha. unfold grant. cbn [bk_joined bk_ranks bk_gen]. by rewrite lookup_insert, Er.
      * intros e. cbn [hw_wire]. tauto.
  - (* kick *) split; [|intros e; cbn [hw_wire]; tauto].
    split; cbn [hw_owner hw_members hw_wire bk_step bk_gen bk_flat bk_ranks bk_joined bk_grants].
    + exists lf. by rewrite Ho.
    + apply map_eq. intros c. rewrite map_lookup_imap, lookup_fmap. destruct (decide (c = cid)) as [->|Hc].
      * by rewrite !lookup_delete.
      * rewrite !lookup_delete_ne by done. rewrite Hlk. by destruct (bk_joined b !! c).
    + exact Ha.
  - (* promote *) unfold promote. rewrite Ho. cbn [hs_owner negb hs_self]. rewrite derive_asg, (leaf_of_ok _ _ _ _ HI).
    cbn [with_ranks hs_owner hs_leaf hs_mode hs_self hs_ranks hs_flat].
    destruct (bk_joined b !! cid) as [n|] eqn:Ej; cbn [fmap option_fmap option_map compose].
    + cbn [aseal hsym]. split.
      * split; cbn [hw_owner hw_members hw_wire bk_step bk_gen bk_flat bk_ranks bk_joined bk_grants].
        -- by exists lf.
        -- erewrite receive_ok; [|by rewrite Hlk, Ej|done|done]. cbn [hs_ranks hs_flat mstate].
           apply map_eq. intros c. rewrite map_lookup_imap. destruct (decide (c = cid)) as [->|Hc].
           ++ rewrite !lookup_insert, Ej. cbn. by rewrite ?lookup_insert.
           ++ rewrite !lookup_insert_ne by done. rewrite Hlk. destruct (bk_joined b !! c); [|done]. cbn. by rewrite ?lookup_insert_ne.
        -- intros a. rewrite elem_of_cons, Ha. unfold grant. cbn [bk_joined bk_ranks bk_gen]. rewrite lookup_insert, Ej. split.
           ++ intros [[= ->]|(n' & g & q & H1 & ->)].
              ** exists n, (bk_gen b), p. split; [by left|done].
              ** exists n', g, q. split; [by right|done].
           ++ intros (n' & g & q & H1 & ->). apply elem_of_cons in H1 as [[= -> -> ->]|H1]; [by left|right]. by exists n', g, q.
      * intros e. cbn [hw_wire]. rewrite elem_of_cons. split; [intros [?|?]; [done|by left]|intros [?|[]]; by right].
    + split; [|intros e; cbn [hw_wire]; tauto].
      split; cbn [hw_owner hw_members hw_wire bk_step bk_gen bk_flat bk_ranks bk_joined bk_grants].
      * by exists lf.
      * rewrite Hm. apply map_eq. intros c. rewrite !map_lookup_imap. destruct (bk_joined b !! c) eqn:E; [|done]. cbn.
        rewrite lookup_insert_ne; [done|]. intros <-. congruence.
      * intros a. rewrite Ha. unfold grant. cbn [bk_joined bk_ranks bk_gen]. by rewrite Ej.
  - (* demote *) unfold demote. rewrite Ho. cbn [hs_owner negb hs_mode hs_ranks].
    change (h_root hsym (HRoot root : hsec hsym) pol) with (asg pol root []).
    set (ranks := <[cid:=[seg]]> (bk_ranks b)).
    rewrite (reassign_ok pol root (bk_joined b)) by (intros c; by apply (leaf_of_ok pol)).
    cbn [with_self with_ranks hs_flat hs_owner hs_leaf hs_mode hs_self hs_ranks]. split.
    + split; cbn [hw_owner hw_members hw_wire bk_step bk_gen bk_flat bk_ranks bk_joined bk_grants].
      * by exists lf.
      * apply map_eq. intros c. rewrite map_lookup_imap, lookup_fmap.
        rewrite (receive_all pol root (bk_joined b)).
        -- rewrite list_to_map_to_list, Hlk. destruct (bk_joined b !! c) as [n|]; [|done]. cbn [fmap option_fmap option_map mbind option_bind].
           unfold mstate. cbn [hs_leaf hs_ranks hs_flat]. fold ranks.
           destruct (ranks !! c) as [p|] eqn:Ec; [done|].
           unfold ranks in Ec. apply lookup_insert_None in Ec as [Ec1 Ec2].
           rewrite Ec1. done.
        -- apply NoDup_fst_map_to_list.
        -- intros c'. rewrite Hlk. by destruct (bk_joined b !! c').
      * intros a. rewrite elem_of_app, Ha.
        assert (Hx : WAssign a ∈ (WAssign ∘ snd <$> regrant pol (bk_joined b) root (map_to_list ranks)) ↔
                     a ∈ (regrant pol (bk_joined b) root (map_to_list ranks)).*2).
        { rewrite (list_fmap_compose snd WAssign). rewrite elem_of_list_fmap. split; [intros (a' & [= ->] & ?); done|intros ?; by exists a]. }
        rewrite Hx, regrant_elem. setoid_rewrite elem_of_app.
        assert (Hg : ∀ n g p, (n, g, p) ∈ concat (grant (mk_book root f ranks (bk_joined b) (bk_grants b)) <$> (map_to_list ranks).*1) ↔
                  g = root ∧ ∃ c, bk_joined b !! c = Some n ∧ (c, p) ∈ map_to_list ranks).
        { intros n g p. rewrite elem_of_list_In, in_concat. setoid_rewrite <- elem_of_list_In. unfold grant. cbn [bk_joined bk_ranks bk_gen]. split.
          - intros (l & Hl & Hin). apply elem_of_list_fmap in Hl as (c & -> & Hc).
            destruct (bk_joined b !! c) as [n'|] eqn:En; [|by apply elem_of_nil in Hin].
            destruct (ranks !! c) as [p'|] eqn:Ep; [|by apply elem_of_nil in Hin].
            apply elem_of_list_singleton in Hin as [= -> -> ->]. split; [done|]. exists c. split; [done|]. by apply elem_of_map_to_list.
          - intros (-> & c & En & Hc). eexists. split.
            + apply elem_of_list_fmap. exists c. split; [reflexivity|]. apply elem_of_list_fmap. by exists (c, p).
            + apply elem_of_map_to_list in Hc. rewrite En, Hc. by left. }
        split.
        -- intros [(n & c & p & H1 & H2 & ->)|(n & g & p & H1 & ->)].
           ++ exists n, root, p. split; [left; apply Hg; eauto|done].
           ++ exists n, g, p. split; [by right|done].
        -- intros (n & g & p & [H1|H1] & ->).
           ++ apply Hg in H1 as (-> & c & H1 & H2). left. by exists n, c, p.
           ++ right. by exists n, g, p.
    + intros e. cbn [hw_wire]. rewrite elem_of_app. split; [|intros [?|[]]; by right].
      intros [Hin|?]; [|by left]. apply elem_of_list_fmap in Hin as (? & ? & _). done.
  - (* send *)
    assert (E : (match who with None => Some (hw_owner w) | Some cid => hw_members w !! cid end) ≫=
                  (λ st, encrypt_dhe hsym st (HKey key) tt text) =
                (λ p, env_of pol (bk_gen b) p (bk_flat b) key text) <$> unit_of b who).
    { assert (Hseal : ∀ o lf' p rk, encrypt_dhe hsym (mk_hstate hsym o lf' (Command pol) (Some (asg pol (bk_gen b) p)) rk (Some (HGroup (bk_flat b))))
                (HKey key) tt text = Some (env_of pol (bk_gen b) p (bk_flat b) key text)).
      { intros. unfold env_of. by destruct pol. }
      unfold unit_of. destruct who as [cid|].
      - rewrite Hlk. destruct (bk_joined b !! cid) as [n|]; cbn [fmap option_fmap option_map mbind option_bind]; [|done].
        unfold mstate. destruct (bk_ranks b !! cid) as [p|]; cbn [fmap option_fmap option_map]; [apply Hseal|done].
      - rewrite Ho. cbn [mbind option_bind]. apply Hseal. }
    cbn [bk_step].
    destruct (match who with None => Some (hw_owner w) | Some cid => hw_members w !! cid end) as [st|]; cbn [mbind option_bind] in E.
    + rewrite E. destruct (unit_of b who) as [p|]; cbn [fmap option_fmap option_map].
      * split.
        -- split; cbn [hw_owner hw_members hw_wire]; [by exists lf|exact Hm|]. intros a. rewrite elem_of_cons, Ha.
           split; [intros [?|?]; done|by right].
        -- intros e. cbn [hw_wire]. rewrite elem_of_cons. split.
           ++ intros [[= ->]|?]; [right; by exists p|by left].
           ++ intros [?|(p' & [= <-] & ->)]; [by right|by left].
      * split; [done|]. intros e. split; [by left|intros [?|(? & ? & _)]; done].
    + split; [done|]. intros e. split; [by left|intros [?|(p & Hp & _)]; [done|]]. by rewrite Hp in E.
Qed.

Lemma hfounded_ok pol ranks lf root flat : HW pol (hfounded pol ranks lf root flat) (bk_init ranks root flat).
Proof.
  split; cbn.
  - by exists (HLeaf lf).
  - symmetry. apply map_imap_empty || done.
  - intros a. split; [intros Hin; by apply elem_of_nil in Hin|intros (n & g & p & Hin & _); by apply elem_of_nil in Hin].
Qed.

(** all messages on the wire, in terms of the history *)
Definition sent (pol : read_policy) (b0 : book) (os : list hop) (e : envelope hsym) : Prop :=
  ∃ os1 who key text os2 p, os = os1 ++ HSend who key text :: os2 ∧
    unit_of (bk_run b0 os1) who = Some p ∧
    e = env_of pol (bk_gen (bk_run b0 os1)) p (bk_flat (bk_run b0 os1)) key text.

Lemma hrun_ok pol ranks lf root flat os :
  let w := hrun (hfounded pol ranks lf root flat) os in let b0 := bk_init ranks root flat in
  HW pol w (bk_run b0 os) ∧ ∀ e, WMsg e ∈ hw_wire w ↔ sent pol b0 os e.
Proof.
  cbv zeta. induction os as [|o os IH] using rev_ind.
  - split; [apply hfounded_ok|]. intros e. split; [intros Hin; by apply elem_of_nil in Hin|].
    intros (os1 & who & key & text & os2 & p & E & _). by destruct os1.
  - destruct IH as [HI Hs]. unfold hrun, bk_run in *. rewrite !foldl_app. cbn [foldl].
    destruct (hstep_ok pol _ _ o HI) as [HI' He]. split; [done|]. intros e. rewrite He, Hs. split.
    + intros [(os1 & who & key & text & os2 & p & -> & H2 & H3)|Hn].
      * exists os1, who, key, text, (os2 ++ [o]), p. split; [by rewrite <- app_assoc|done].
      * destruct o as [| | | |who key text]; try done. destruct Hn as (p & H1 & ->).
        exists os, who, key, text, [], p. done.
    + intros (os1 & who & key & text & os2 & p & E & H2 & H3).
      destruct os2 as [|x os2 _] using rev_ind.
      * apply app_inj_tail in E as [-> ->]. right. by exists p.
      * change (HSend who key text :: os2 ++ [x]) with ((HSend who key text :: os2) ++ [x]) in E. rewrite app_assoc in E. apply app_inj_tail in E as [-> ->]. left. by exists os1, who, key, text, os2, p.
Qed.

(** ** What an attacker can compute *)
Section Attack.
  Context (pol : read_policy) (w : hworld) (b0 : book) (os : list hop) (bad flats : N → Prop).
  Let b := bk_run b0 os.
  Context (HI : HW pol w b) (Hs : ∀ e, WMsg e ∈ hw_wire w ↔ sent pol b0 os e).

  Definition key_open (c : N) : Prop :=
    ∃ os1 who text os2 p, os = os1 ++ HSend who c text :: os2 ∧ unit_of (bk_run b0 os1) who = Some p ∧
      (superior b bad (bk_gen (bk_run b0 os1)) p ∨ pol = BroadcastAudit ∧ flats (bk_flat (bk_run b0 os1))).
  Definition may (t : hterm) : Prop :=
    let '(x, p) := strip t in
    match x with
    | HLeaf n => bad n
    | HRoot g => superior b bad g p
    | HKey c => key_open c
    | HGroup n => flats n
    | _ => True
    end.

  Lemma known_may t : known (hw_wire w) bad flats t → may t.
  Proof using HI Hs.
    induction 1 as [n Hn|n Hn|n|t seg _ IH|s m Hin _ IH|s k e Hin He _ IH|f k e Hin He _ IH]; [done|done|done| | | |].
    - unfold may in *. cbn [strip]. destruct (strip t) as [x p]. destruct x; try done.
      destruct IH as (n' & q & y & H1 & H2 & ->). exists n', q, (y ++ [seg]). by rewrite app_assoc.
    - apply (hw_a _ _ _ HI) in Hin as (n & g & p & Hg & [= -> ->]). cbn in IH. unfold may. cbn [asg hm_secret].
      rewrite strip_unit. exists n, p, []. by rewrite app_nil_r.
    - apply Hs in Hin as (os1 & who & key & text & os2 & p & E & Hu & ->). cbn [ev_hier env_of] in He. injection He as <- <-.
      unfold may in *. rewrite strip_unit in IH. cbn. exists os1, who, text, os2, p. split_and!; [done|done|by left].
    - apply Hs in Hin as (os1 & who & key & text & os2 & p & E & Hu & ->). cbn [ev_flat env_of] in He.
      assert (Hx : pol = BroadcastAudit ∧ f = HGroup (bk_flat (bk_run b0 os1)) ∧ k = HKey key).
      { clear - He. revert He. by case pol; intros [= <- <-]. }
      destruct Hx as (Hp & -> & ->). unfold may in *. cbn in IH |- *.
      exists os1, who, text, os2, p. split_and!; [done|done|by right].
  Qed.

  Lemma superior_known g p : superior b bad g p → known (hw_wire w) bad flats (unit_secret g p).
  Proof using HI.
    intros (n & q & x & H1 & H2 & ->). unfold unit_secret. rewrite foldl_app.
    assert (Hq : known (hw_wire w) bad flats (unit_secret g q)).
    { change (unit_secret g q) with (hm_secret (asg pol g q)). eapply kn_assign; [|by apply (kn_leaf _ _ _ n)].
      apply (hw_a _ _ _ HI). by exists n, g, q. }
    unfold unit_secret in Hq. revert Hq. generalize (foldl HChild (HRoot g) q). induction x as [|seg x IHx]; intros t Ht; cbn [foldl]; [done|].
    apply IHx. by apply kn_child.
  Qed.

  Lemma unit_known_iff g p : known (hw_wire w) bad flats (unit_secret g p) ↔ superior b bad g p.
  Proof using HI Hs.
    split; [|apply superior_known]. intros Hk. apply known_may in Hk. unfold may in Hk. by rewrite strip_unit in Hk.
  Qed.
  Lemma key_known_iff c : known (hw_wire w) bad flats (HKey c) ↔ key_open c.
  Proof using HI Hs.
    split; [intros Hk; by apply known_may in Hk|]. intros (os1 & who & text & os2 & p & E & Hu & Hor).
    assert (Hin : WMsg (env_of pol (bk_gen (bk_run b0 os1)) p (bk_flat (bk_run b0 os1)) c text) ∈ hw_wire w).
    { apply Hs. by exists os1, who, c, text, os2, p. }
    destruct Hor as [Hsup|[-> Hf]].
    - eapply kn_hier; [exact Hin|reflexivity|]. by apply superior_known.
    - eapply kn_wrap; [exact Hin|reflexivity|]. by apply kn_flat.
  Qed.
End Attack.

Lemma keys_unique os1 who c text os2 os1' who' text' os2' :
  let os := os1 ++ HSend who c text :: os2 in
  NoDup (keys os) → os = os1' ++ HSend who' c text' :: os2' → os1' = os1 ∧ who' = who ∧ text' = text.
Proof.
  cbv zeta. revert os1'. induction os1 as [|o os1 IH]; intros os1' Hnd E.
  - destruct os1' as [|o' os1']; cbn [app] in E; [by injection E as -> -> _|exfalso].
    injection E as <- ->. unfold keys in Hnd. cbn [app omap list_omap] in Hnd. apply NoDup_cons in Hnd as [Hn _].
    apply Hn. fold (keys (os1' ++ HSend who' c text' :: os2')). unfold keys. rewrite omap_app. apply elem_of_app. right. cbn. by left.
  - destruct os1' as [|o' os1']; cbn [app] in E.
    + exfalso. injection E as -> E. unfold keys in Hnd. cbn [app omap list_omap] in Hnd. apply NoDup_cons in Hnd as [Hn _].
      apply Hn. fold (keys (os1 ++ HSend who c text :: os2)). unfold keys. rewrite omap_app. apply elem_of_app. right. cbn. by left.
    + injection E as <- E. destruct (IH os1') as (-> & -> & ->); [|done|done].
      unfold keys in Hnd. cbn [app omap list_omap] in Hnd. destruct o; try done. by apply NoDup_cons in Hnd as [_ ?].
Qed.
