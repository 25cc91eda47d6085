(** Proofs about requests, subscriptions and the kernel. *)
From Coq Require Import ZifyBool ZifyNat ZifyN.
From stdpp Require Import prelude.
From Verif Require Import Kernel_Model Kernel_Spec.

Lemma fits_concerns r k : match callback_key r with Some k' => fits k' k = true | None => False end ↔ concerns r k.
Proof.
  unfold concerns, fits. destruct (callback_key r) as [[t c]|]; cbn; [|split; [done|intros (? & ? & ?); done]]. split.
  - intros [H1%N.eqb_eq H2]%andb_prop. subst. exists c. split; [done|]. intros x Hx. rewrite Hx in H2.
    destruct c; [|done]. by apply N.eqb_eq in H2 as ->.
  - intros (c' & [= -> ->] & H). rewrite N.eqb_refl. cbn. destruct (k_cid k) as [x|]; [|done]. rewrite (H x eq_refl). apply N.eqb_refl.
Qed.

Lemma krun_app es1 : ∀ w es2, krun w (es1 ++ es2) = ((krun (krun w es1).1 es2).1, (krun w es1).2 ++ (krun (krun w es1).1 es2).2).
Proof.
  induction es1 as [|e es IH]; intros w es2; cbn [app krun fst snd].
  - by destruct (krun w es2).
  - destruct (kstep w e) as [w1 o]. rewrite IH. destruct (krun w1 es) as [w2 os]. cbn [fst snd]. by destruct o.
Qed.
Lemma krun_cons w e es : krun w (e :: es) = ((krun (kstep w e).1 es).1, option_list (kstep w e).2 ++ (krun (kstep w e).1 es).2).
Proof. cbn [krun]. destruct (kstep w e) as [w1 o]. cbn [fst snd]. destruct (krun w1 es). by destruct o. Qed.

(** ** The invariant: as long as tickets are not reused, the map holds the open subscriptions *)
Record good (used : list N) (w : kworld) : Prop := {
  g_sub : ∀ k i, (k, i) ∈ kw_map w → is_open w i k;
  g_map : ∀ k i, is_open w i k → (k, i) ∈ kw_map w;
  g_one : ∀ k k' i i', (k, i) ∈ kw_map w → (k', i') ∈ kw_map w → k_ticket k = k_ticket k' → k = k' ∧ i = i';
  g_dup : NoDup (kw_map w);
  g_used : ∀ k i, (k, i) ∈ kw_map w → k_ticket k ∈ used }.

Lemma good_init l : good [] (kinit l).
Proof.
  split; cbn.
  - intros k i H. by apply elem_of_nil in H.
  - intros k i (s & H & _). cbn in H. by rewrite lookup_nil in H.
  - intros ???? H. by apply elem_of_nil in H.
  - constructor.
  - intros ?? H. by apply elem_of_nil in H.
Qed.
(** Only the map and the subscriptions matter. *)
Lemma good_same used w w' : kw_map w' = kw_map w → kw_subs w' = kw_subs w → good used w → good used w'.
Proof.
  intros E1 E2 [H1 H2 H3 H4 H5]. unfold is_open in *. split; unfold is_open; rewrite ?E1, ?E2; eauto.
Qed.

Lemma step_other w e :
  match e with Subscribe _ _ | DropSub _ | Dispatch _ => False | _ => True end →
  kw_map (kstep w e).1 = kw_map w ∧ kw_subs (kstep w e).1 = kw_subs w.
Proof.
  intros H. destruct e as [t r|t r|i|o| |r| |j|i ok|i| | | |ok| |ok]; try done; cbn [kstep].
  - destruct (running (kw_server w)); done.
  - destruct (kw_server w); try done. destruct (kw_requests w) as [|[t r] rest]; try done. destruct (bool_decide _); [done|].
    destruct r; try done; by destruct o.
  - by destruct (kw_server w).
  - by destruct r.
  - by destruct (kw_server w).
  - destruct (kw_kernel w), (kw_running w !! i) as [[r []]|]; try done. by destruct (live w).
  - destruct (kw_kernel w), (kw_running w !! i) as [[r []]|]; try done. destruct (live w), (kw_server w); done.
  - destruct (kw_kernel w), (live w); done.
  - destruct (kw_kernel w) as [[]|?|?|?], (live w); done.
  - destruct (kw_kernel w), (live w); done.
  - destruct (kw_kernel w), (live w); done.
  - destruct (kw_kernel w), (live w); done.
  - destruct (kw_server w), (live w); done.
Qed.

(** The one entry that fits. *)
Lemma find_sub_spec used w r j : good used w →
  (∀ i, find_sub j w r = Some i → ∃ k, is_open w i k ∧ concerns r k) ∧
  (∀ i k, is_open w i k → concerns r k → find_sub j w r = Some i).
Proof.
  intros Hg. unfold find_sub. split.
  - intros i. destruct (callback_key r) as [k|] eqn:Ek; [|done]. set (found := filter _ _).
    destruct (found !! _) as [[k' i']|] eqn:Ef; [|done]. apply elem_of_list_lookup_2 in Ef.
    apply elem_of_list_filter in Ef as [Hf Hm]. destruct (g_sub _ _ Hg _ _ Hm) as (s & Hs & Hk & Ho). rewrite Hs, Ho.
    intros [= ->]. exists k'. split; [by exists s|]. apply fits_concerns. by rewrite Ek.
  - intros i k Ho Hc. assert (Hm := g_map _ _ Hg _ _ Ho). pose proof (proj2 (fits_concerns _ _) Hc) as Hf.
    destruct (callback_key r) as [k'|] eqn:Ek; [|done]. set (found := filter _ _).
    assert (Hin : (k, i) ∈ found) by (by apply elem_of_list_filter).
    assert (Hall : ∀ x, x ∈ found → x = (k, i)).
    { intros [k2 i2] [Hf2 Hm2]%elem_of_list_filter. cbn in Hf2. destruct (g_one _ _ Hg _ _ _ _ Hm2 Hm) as [-> ->]; [|done].
      unfold fits in Hf, Hf2. apply andb_prop in Hf as [Hf _], Hf2 as [Hf2 _]. apply N.eqb_eq in Hf, Hf2. congruence. }
    assert (Hlen : (j mod length found < length found)%nat).
    { apply Nat.mod_upper_bound. destruct found; [by apply elem_of_nil in Hin|done]. }
    destruct (lookup_lt_is_Some_2 found _ Hlen) as [x Hx]. rewrite Hx. rewrite (Hall x) by by eapply elem_of_list_lookup_2.
    destruct Ho as (s & -> & _ & ->). done.
Qed.

Definition used_after (used : list N) (e : kevent) : list N := match e with Subscribe t _ => t :: used | _ => used end.

Lemma not_used_has used w t c : good used w → t ∉ used → map_has (mk_ckey t c) (kw_map w) = false.
Proof.
  intros Hg Hn. unfold map_has. apply not_true_is_false. intros (x & Hx & Hb)%existsb_exists.
  apply bool_decide_eq_true in Hb. apply elem_of_list_In in Hx. destruct x as [k i]. cbn in Hb. subst k.
  apply Hn. exact (g_used _ _ Hg _ _ Hx).
Qed.
Lemma open_app l x i k :
  (∃ s, (l ++ [x]) !! i = Some s ∧ s_key s = k ∧ s_open s = true) ↔
  (∃ s, l !! i = Some s ∧ s_key s = k ∧ s_open s = true) ∨ (i = length l ∧ s_key x = k ∧ s_open x = true).
Proof.
  split.
  - intros (s & H & Hk & Ho). apply lookup_app_Some in H as [H|[Hl H]]; [left; by exists s|]. right.
    apply list_lookup_singleton_Some in H as [Hi ->]. split; [lia|done].
  - intros [(s & H & ?)|(-> & ? & ?)].
    + exists s. split; [|done]. by apply lookup_app_l_Some.
    + exists x. split; [|done]. rewrite lookup_app_r by lia. by rewrite Nat.sub_diag.
Qed.

Lemma good_step used w e : good used w → fresh used [e] → good (used_after used e) (kstep w e).1.
Proof.
  intros Hg Hf. destruct e as [t r|t r|i|o| |r| |j|i ok|i| | | |ok| |ok];
    try (match goal with |- good _ (kstep w ?e).1 => destruct (step_other w e I) as [E1 E2]; by apply (good_same _ w) end).
  - (* Subscribe *)
    destruct Hf as [Hf _]. cbn [kstep used_after]. rewrite (not_used_has used) by done.
    destruct (running (kw_server w)); cbn [fst].
    + split; cbn [kw_map kw_subs set_map set_subs set_requests].
      * intros k i [H|[= -> ->]%elem_of_list_singleton]%elem_of_app; apply open_app; [left; by apply (g_sub _ _ Hg)|by right].
      * intros k i [H|(-> & <- & _)]%open_app; apply elem_of_app; [left; by apply (g_map _ _ Hg)|right; by apply elem_of_list_singleton].
      * intros k k' i i' [H|[= -> ->]%elem_of_list_singleton]%elem_of_app [H'|[= -> ->]%elem_of_list_singleton]%elem_of_app E; cbn in E.
        -- by apply (g_one _ _ Hg).
        -- destruct Hf. rewrite <- E. by apply (g_used _ _ Hg _ _ H).
        -- destruct Hf. rewrite E. by apply (g_used _ _ Hg _ _ H').
        -- done.
      * apply NoDup_app. split; [apply Hg|]. split; [|apply NoDup_singleton]. intros x Hx ->%elem_of_list_singleton.
        apply Hf. exact (g_used _ _ Hg _ _ Hx).
      * intros k i [H|[= -> ->]%elem_of_list_singleton]%elem_of_app; [right; by apply (g_used _ _ Hg _ _ H)|by left].
    + split; cbn [kw_map kw_subs set_subs].
      * intros k i H. apply open_app. left. by apply (g_sub _ _ Hg).
      * intros k i [H|(_ & _ & H)]%open_app; [by apply (g_map _ _ Hg)|done].
      * apply Hg.
      * apply Hg.
      * intros k i H. right. by apply (g_used _ _ Hg _ _ H).
  - (* DropSub *)
    cbn [kstep used_after]. destruct (kw_subs w !! i) as [s|] eqn:Es; [|done]. destruct (s_open s) eqn:Eo; [|done]. cbn [fst].
    assert (Hi : is_open w i (s_key s)) by (by exists s).
    assert (Hm : ∀ k i', (k, i') ∈ map_remove (s_key s) (kw_map w) ↔ (k, i') ∈ kw_map w ∧ i' ≠ i).
    { intros k i'. unfold map_remove. rewrite elem_of_list_filter. cbn. split.
      - intros [Hk H]. split; [done|]. intros ->. destruct (g_sub _ _ Hg _ _ H) as (s' & Hs' & Hk' & _). congruence.
      - intros [H Hn]. split; [|done]. intros ->. destruct (g_one _ _ Hg _ _ _ _ H (g_map _ _ Hg _ _ Hi) eq_refl). done. }
    assert (Ho : ∀ k i', (∃ s', <[i := mk_sub (s_key s) false (s_got s)]> (kw_subs w) !! i' = Some s' ∧ s_key s' = k ∧ s_open s' = true) ↔
      is_open w i' k ∧ i' ≠ i).
    { intros k i'. split.
      - intros (s' & H & Hk & Hop). destruct (decide (i' = i)) as [->|Hn].
        + rewrite list_lookup_insert in H by by eapply lookup_lt_Some. by injection H as <-.
        + rewrite list_lookup_insert_ne in H by done. split; [by exists s'|done].
      - intros [(s' & H & ? & ?) Hn]. exists s'. by rewrite list_lookup_insert_ne by done. }
    split; cbn [kw_map kw_subs set_map set_subs].
    + intros k i' [H Hn]%Hm. apply Ho. split; [by apply (g_sub _ _ Hg)|done].
    + intros k i' [H Hn]%Ho. apply Hm. split; [by apply (g_map _ _ Hg)|done].
    + intros k k' i1 i2 [H _]%Hm [H' _]%Hm. by apply (g_one _ _ Hg).
    + apply NoDup_filter, Hg.
    + intros k i' [H _]%Hm. by apply (g_used _ _ Hg _ _ H).
  - (* Dispatch *)
    cbn [kstep used_after]. destruct (kw_kernel w); try done. destruct (kw_results w) as [|r rest]; [done|].
    destruct (live w && room w); [|done].
    assert (H : good used (match find_sub j (set_results rest w) r with
                | Some i => (set_subs (alter (push r) i (kw_subs (set_results rest w))) (set_results rest w), Some (OSub i r))
                | None => (set_running (kw_running (set_results rest w) ++ [(r, false)]) (set_results rest w), Some (OKernel r))
                end).1).
    { destruct (find_sub _ _ _) as [i|]; cbn [fst]; [|by apply (good_same _ w)].
      assert (Ho : ∀ i' k, (∃ s, alter (push r) i (kw_subs w) !! i' = Some s ∧ s_key s = k ∧ s_open s = true) ↔ is_open w i' k).
      { intros i' k. destruct (decide (i = i')) as [<-|Hn].
        - rewrite list_lookup_alter. unfold is_open. destruct (kw_subs w !! i) as [s|]; cbn; split; intros (s' & [= <-] & ?); eexists; (split; [done|]); done.
        - by rewrite list_lookup_alter_ne by done. }
      split; cbn [kw_map kw_subs set_subs set_results].
      - intros k i' H. apply Ho. by apply (g_sub _ _ Hg).
      - intros k i' H%Ho. by apply (g_map _ _ Hg).
      - apply Hg.
      - apply Hg.
      - apply Hg. }
    destruct r; try exact H. by apply (good_same _ w).
Qed.
Lemma fresh_cons used e es : fresh used (e :: es) ↔ fresh used [e] ∧ fresh (used_after used e) es.
Proof. destruct e; cbn; tauto. Qed.
Definition used_run (used : list N) (es : list kevent) : list N := foldl used_after used es.
Lemma good_run es : ∀ used w, good used w → fresh used es → good (used_run used es) (krun w es).1.
Proof.
  induction es as [|e es IH]; intros used w Hg Hf; [done|]. apply fresh_cons in Hf as [H1 H2].
  rewrite krun_cons. cbn [fst]. apply IH; [|done]. by apply good_step.
Qed.
Lemma fresh_app es1 : ∀ used es2, fresh used (es1 ++ es2) ↔ fresh used es1 ∧ fresh (used_run used es1) es2.
Proof.
  induction es1 as [|e es IH]; intros used es2; [cbn; tauto|]. cbn [app]. rewrite (fresh_cons used e (es ++ es2)), (fresh_cons used e es), IH.
  cbn [used_run foldl]. tauto.
Qed.
(** Only the tickets in use matter. *)
Lemma good_more used used' w : used ⊆ used' → good used w → good used' w.
Proof. intros Hs [H1 H2 H3 H4 H5]. split; eauto. Qed.

(** ** Order *)
Lemma results_grow w e :
  match e with Dispatch _ => False | _ => True end →
  ∃ l, kw_results (kstep w e).1 = kw_results w ++ l ∧ match (kstep w e).2 with Some (OSub _ _) | Some (OKernel _) => False | _ => True end.
Proof.
  intros H. assert (Hs : ∃ l, kw_results w = kw_results w ++ l ∧ True) by (exists []; by rewrite app_nil_r).
  assert (He : ∀ x, ∃ l, kw_results w ++ [x] = kw_results w ++ l ∧ True) by (intros x; by exists [x]).
  destruct e as [t r|t r|i|o| |r| |j|i ok|i| | | |ok| |ok]; try done; cbn [kstep].
  - destruct (map_has (mk_ckey t (session_cid r)) (kw_map w)), (running (kw_server w)); exact Hs.
  - destruct (running (kw_server w)); exact Hs.
  - destruct (kw_subs w !! i) as [s|]; [destruct (s_open s)|]; exact Hs.
  - destruct (kw_server w); try exact Hs. destruct (kw_requests w) as [|[t r] rest]; [exact Hs|]. destruct (bool_decide _); [apply He|].
    destruct r; try (destruct o; first [exact Hs|apply He]); apply He.
  - destruct (kw_server w); try exact Hs; apply He.
  - destruct r; try exact Hs; apply He.
  - destruct (kw_server w); exact Hs.
  - destruct (kw_kernel w), (kw_running w !! i) as [[r []]|]; try exact Hs. destruct (live w); exact Hs.
  - destruct (kw_kernel w), (kw_running w !! i) as [[r []]|]; try exact Hs. destruct (live w); try exact Hs. destruct (kw_server w); exact Hs.
  - destruct (kw_kernel w), (live w); exact Hs.
  - destruct (kw_kernel w) as [[]|?|?|?], (live w); exact Hs.
  - destruct (kw_kernel w), (live w); exact Hs.
  - destruct (kw_kernel w), (live w); exact Hs.
  - destruct (kw_kernel w), (live w); exact Hs.
  - destruct (kw_server w), (live w); try exact Hs; destruct ok; exact Hs.
Qed.
Lemma handed_none o : match o with Some (OSub _ _) | Some (OKernel _) => False | _ => True end → handed (option_list o) = [].
Proof. by destruct o as [[]|]. Qed.
(** what a round of the loop does *)
Lemma dispatch_spec w j :
  let '(w', o) := kstep w (Dispatch j) in
  (w' = w ∧ o = None) ∨
  ∃ r rest clean, kw_kernel w = KRun clean ∧ live w = true ∧ kw_results w = r :: rest ∧ kw_results w' = rest ∧ kw_out w' = None ∧ kw_limit w' = kw_limit w ∧ kw_map w' = kw_map w ∧
    ((r = Shutdown ∧ o = None ∧ kw_kernel w' = KRun true ∧ kw_subs w' = kw_subs w) ∨
     (r ≠ Shutdown ∧ kw_kernel w' = kw_kernel w ∧
      match find_sub j w r with
      | Some i => o = Some (OSub i r) ∧ kw_subs w' = alter (push r) i (kw_subs w)
      | None => o = Some (OKernel r) ∧ kw_subs w' = kw_subs w
      end)).
Proof.
  cbn [kstep]. destruct (kw_kernel w) as [clean|?|?|?] eqn:Ek; try by left. destruct (kw_results w) as [|r rest] eqn:Er; [by left|].
  destruct (live w && room w) eqn:El; [|by left]. apply andb_prop in El as [El _].
  assert (Ho : kw_out w = None) by (unfold live in El; by destruct (kw_out w)).
  assert (Hf : find_sub j (set_results rest w) r = find_sub j w r) by done. rewrite Hf.
  assert (H : ∀ o w', kw_results w' = rest → kw_out w' = None → kw_limit w' = kw_limit w → kw_map w' = kw_map w →
    ((r = Shutdown ∧ o = None ∧ kw_kernel w' = KRun true ∧ kw_subs w' = kw_subs w) ∨
     (r ≠ Shutdown ∧ kw_kernel w' = KRun clean ∧
      match find_sub j w r with
      | Some i => o = Some (OSub i r) ∧ kw_subs w' = alter (push r) i (kw_subs w)
      | None => o = Some (OKernel r) ∧ kw_subs w' = kw_subs w
      end)) →
    (w' = w ∧ o = None) ∨
    ∃ r0 rest0 clean0, KRun clean = KRun clean0 ∧ live w = true ∧ r :: rest = r0 :: rest0 ∧ kw_results w' = rest0 ∧ kw_out w' = None ∧
      kw_limit w' = kw_limit w ∧ kw_map w' = kw_map w ∧
    ((r0 = Shutdown ∧ o = None ∧ kw_kernel w' = KRun true ∧ kw_subs w' = kw_subs w) ∨
     (r0 ≠ Shutdown ∧ kw_kernel w' = KRun clean ∧
      match find_sub j w r0 with
      | Some i => o = Some (OSub i r0) ∧ kw_subs w' = alter (push r0) i (kw_subs w)
      | None => o = Some (OKernel r0) ∧ kw_subs w' = kw_subs w
      end))).
  { intros o w' H1 H2 H3 H4 H5. right. exists r, rest, clean. auto 10. }
  destruct r; try (destruct (find_sub j w _) as [i|] eqn:Ef; apply H; try done; right; (split; [done|]; split; [done|]); done).
  apply H; try done. by left.
Qed.
Lemma order_run es : ∀ w,
  filter not_shutdown (kw_results w ++ produced w es) = handed (krun w es).2 ++ filter not_shutdown (kw_results (krun w es).1).
Proof.
  induction es as [|e es IH]; intros w; [cbn; by rewrite app_nil_r|]. rewrite krun_cons. cbn [fst snd produced].
  unfold handed. rewrite omap_app. fold (handed (option_list (kstep w e).2)) (handed (krun (kstep w e).1 es).2).
  assert (Hd : (match e with Dispatch _ => False | _ => True end) ∨ ¬ (match e with Dispatch _ => False | _ => True end)) by (destruct e; tauto). destruct Hd as [Hd|Hd].
  - destruct (results_grow w e Hd) as (l & El & Ho). rewrite (handed_none _ Ho). cbn [app]. rewrite <- IH, El.
    rewrite drop_app. f_equal. destruct e; try done; by rewrite <- (assoc_L (++)).
  - destruct e as [| | | | | | |j| | | | | | | |]; try (by (destruct Hd)). cbn [app]. pose proof (dispatch_spec w j) as H.
    destruct (kstep w (Dispatch j)) as [w1 o]. cbn [fst snd] in *. rewrite <- (assoc_L (++)), <- IH.
    destruct H as [[-> ->]|(r & rest & clean & _ & _ & -> & -> & _ & _ & _ & H)]; [done|].
    destruct H as [(-> & -> & _)|(Hr & _ & H)]; [done|]. assert (Eo : handed (option_list o) = [r]) by (destruct (find_sub _ _ _); by destruct H as [-> _]).
    rewrite Eo. cbn [app]. rewrite filter_cons_True by done. done.
Qed.

(** ** Streams *)
Lemma stream_step used w e i k :
  good used w → is_open w i k → keeps i e → fresh used [e] →
  is_open (kstep w e).1 i k ∧
  got (kstep w e).1 i = got w i ++ filter (λ r, concerns r k) (handed (option_list (kstep w e).2)).
Proof.
  intros Hg Ho Hk Hf.
  assert (Hd : (match e with Subscribe _ _ | DropSub _ | Dispatch _ => False | _ => True end) ∨ ¬ (match e with Subscribe _ _ | DropSub _ | Dispatch _ => False | _ => True end)) by (destruct e; tauto). destruct Hd as [Hd|Hd].
  { destruct (step_other w e Hd) as [_ E]. unfold is_open, got. rewrite E. split; [done|].
    destruct (results_grow w e) as (_ & _ & H); [by destruct e|]. rewrite (handed_none _ H). cbn. by rewrite app_nil_r. }
  destruct e as [t r|t r|i'|o| |r| |j|i' ok|i'| | | |ok| |ok]; try (by (destruct Hd)).
  - destruct Hf as [Hf _]. assert (H : ∀ x, (∃ s, (kw_subs w ++ [x]) !! i = Some s ∧ s_key s = k ∧ s_open s = true) ∧
      match (kw_subs w ++ [x]) !! i with Some s => s_got s | None => [] end = got w i).
    { intros x. destruct Ho as (s & Hs & ? & ?). split; [exists s|unfold got; rewrite Hs]; by rewrite (lookup_app_l_Some _ _ _ _ Hs). }
    cbn [kstep]. rewrite (not_used_has used) by done. destruct (running (kw_server w)); unfold is_open, got; cbn [fst snd kw_subs set_map set_subs set_requests option_list handed omap list_omap];
      cbn; rewrite app_nil_r; apply H.
  - cbn [kstep]. destruct (kw_subs w !! i') as [s|] eqn:Es; [|cbn; by rewrite app_nil_r]. destruct (s_open s); [|cbn; by rewrite app_nil_r].
    assert (i' ≠ i) by (intros ->; by apply Hk). unfold is_open, got. cbn. rewrite list_lookup_insert_ne by done. by rewrite app_nil_r.
  - pose proof (dispatch_spec w j) as H. destruct (kstep w (Dispatch j)) as [w1 o]. cbn [fst snd].
    destruct H as [[-> ->]|(r & rest & clean & _ & _ & Er & _ & _ & _ & _ & [(-> & -> & _ & E)|(Hr & _ & H)])]; [cbn; by rewrite app_nil_r| |].
    { unfold is_open, got. rewrite E. cbn. by rewrite app_nil_r. }
    destruct (find_sub_spec used w r j Hg) as [F1 F2]. destruct (find_sub j w r) as [i'|] eqn:Ef; destruct H as [-> E].
    + destruct (F1 i' eq_refl) as (k' & Ho' & Hc'). cbn [option_list handed omap list_omap]. unfold is_open, got. rewrite E.
      destruct (decide (i' = i)) as [->|Hn].
      * rewrite list_lookup_alter. destruct Ho as (s & Hs & <- & Hso). rewrite Hs. cbn.
        destruct Ho' as (s' & Hs' & <- & _). assert (s' = s) as -> by congruence. split; [by eexists|].
        rewrite decide_True by done. done.
      * rewrite list_lookup_alter_ne by done. split; [done|]. cbn. rewrite decide_False; [by rewrite app_nil_r|].
        intros Hc. specialize (F2 i k Ho Hc). congruence.
    + unfold is_open, got. rewrite E. cbn. rewrite decide_False; [by rewrite app_nil_r|]. intros Hc. specialize (F2 i k Ho Hc). congruence.
Qed.
Lemma stream_run es : ∀ used w i k,
  good used w → is_open w i k → Forall (keeps i) es → fresh used es →
  is_open (krun w es).1 i k ∧ got (krun w es).1 i = got w i ++ filter (λ r, concerns r k) (handed (krun w es).2).
Proof.
  induction es as [|e es IH]; intros used w i k Hg Ho Hk Hf; [cbn; by rewrite app_nil_r|].
  apply Forall_cons in Hk as [Hk1 Hk2]. apply fresh_cons in Hf as [Hf1 Hf2]. rewrite krun_cons. cbn [fst snd].
  destruct (stream_step used w e i k Hg Ho Hk1 Hf1) as [Ho1 E1]. destruct (IH _ _ i k (good_step _ _ _ Hg Hf1) Ho1 Hk2 Hf2) as [Ho2 E2].
  split; [done|]. rewrite E2, E1. unfold handed. rewrite omap_app, filter_app. by rewrite (assoc_L (++)).
Qed.
Lemma open_not_ended used w i k : good used w → is_open w i k → ¬ ended w i.
Proof. intros Hg Ho H. apply (H k). by apply (g_map _ _ Hg). Qed.

(** ** The end *)
Lemma dead_step w e : kw_out w ≠ None →
  kw_out (kstep w e).1 ≠ None ∧ (kstep w e).2 = None.
Proof.
  intros H. assert (El : live w = false) by (unfold live; by destruct (kw_out w)).
  assert (Hs : kw_out w ≠ None ∧ @None kobs = None) by done.
  destruct e as [t r|t r|i|o| |r| |j|i ok|i| | | |ok| |ok]; cbn [kstep]; rewrite ?El; cbn [andb].
  - destruct (map_has (mk_ckey t (session_cid r)) (kw_map w)), (running (kw_server w)); exact Hs.
  - destruct (running (kw_server w)); exact Hs.
  - destruct (kw_subs w !! i) as [s|]; [destruct (s_open s)|]; exact Hs.
  - destruct (kw_server w); try exact Hs. destruct (kw_requests w) as [|[t r] rest]; [exact Hs|]. destruct (bool_decide _); [exact Hs|].
    destruct r; try (destruct o; exact Hs); exact Hs.
  - destruct (kw_server w); exact Hs.
  - destruct r; exact Hs.
  - destruct (kw_server w); exact Hs.
  - destruct (kw_kernel w), (kw_results w); exact Hs.
  - destruct (kw_kernel w), (kw_running w !! i) as [[r []]|]; exact Hs.
  - destruct (kw_kernel w), (kw_running w !! i) as [[r []]|]; exact Hs.
  - destruct (kw_kernel w); exact Hs.
  - destruct (kw_kernel w) as [[]|?|?|?]; exact Hs.
  - destruct (kw_kernel w); exact Hs.
  - destruct (kw_kernel w); exact Hs.
  - destruct (kw_kernel w); exact Hs.
  - destruct (kw_server w); exact Hs.
Qed.
Lemma dead_run es : ∀ w, kw_out w ≠ None → (krun w es).2 = [].
Proof.
  induction es as [|e es IH]; intros w H; [done|]. rewrite krun_cons. cbn [snd]. destruct (dead_step w e H) as (H1 & ->).
  by rewrite IH.
Qed.

(** where the executor is, from what was seen of its end *)
Definition stage (w : kworld) : list kobs :=
  match kw_kernel w with
  | KRun _ | KStopping _ => []
  | KOnStop _ => [OOnStop]
  | KDone _ => [OOnStop; OStopped]
  end ++ match kw_out w with Some res => [OReturned res] | None => [] end.
Definition in_order (w : kworld) : Prop := kw_out w = None ∨ ∃ res, kw_kernel w = KDone res.
Lemma stage_same w w' : kw_kernel w' = kw_kernel w → kw_out w' = kw_out w → in_order w →
  stage w' = stage w ++ [] ∧ in_order w'.
Proof. intros E1 E2. unfold stage, in_order. by rewrite E1, E2, app_nil_r. Qed.
Lemma stage_run_on w w' c c' : kw_kernel w = KRun c → kw_kernel w' = KRun c' → kw_out w' = kw_out w → in_order w →
  stage w' = stage w ++ [] ∧ in_order w'.
Proof.
  intros E1 E2 E3. unfold stage, in_order. rewrite E1, E2, E3. rewrite app_nil_r. intros [H|[? H]]; [|done]. split; [done|by left].
Qed.
Lemma stage_step w e : kernel_first e → in_order w →
  stage (kstep w e).1 = stage w ++ ends (option_list (kstep w e).2) ∧ in_order (kstep w e).1.
Proof.
  intros Hk Hw. assert (Hs := stage_same w w eq_refl eq_refl Hw).
  assert (Hlive : live w = true → kw_out w = None) by (unfold live; by destruct (kw_out w)).
  destruct e as [t r|t r|i|o| |r| |j|i ok|i| | | |ok| |ok]; try done; cbn [kstep].
  - destruct (map_has (mk_ckey t (session_cid r)) (kw_map w)), (running (kw_server w)); by apply stage_same.
  - destruct (running (kw_server w)); by apply stage_same.
  - destruct (kw_subs w !! i) as [s|]; [destruct (s_open s)|]; by apply stage_same.
  - destruct (kw_server w); try exact Hs. destruct (kw_requests w) as [|[t r] rest]; [exact Hs|]. destruct (bool_decide _); [by apply stage_same|].
    destruct r; try (destruct o; by apply stage_same); by apply stage_same.
  - destruct (kw_server w); by apply stage_same.
  - destruct r; by apply stage_same.
  - destruct (kw_server w); by apply stage_same.
  - destruct (kw_kernel w) as [c|?|?|?] eqn:E; try exact Hs. destruct (kw_results w) as [|r rest]; [exact Hs|].
    destruct (live w && room w) eqn:El; [|exact Hs].
    destruct r; try (destruct (find_sub _ _ _); by apply (stage_run_on w _ c c)). by apply (stage_run_on w _ c true).
  - destruct (kw_kernel w) as [c|?|?|?] eqn:E, (kw_running w !! i) as [[r []]|]; try exact Hs. destruct (live w); try exact Hs.
  - destruct (kw_kernel w) as [c|?|?|?] eqn:E, (kw_running w !! i) as [[r []]|]; try exact Hs. destruct (live w); try exact Hs.
    unfold stage, in_order. rewrite E, (Hlive eq_refl). destruct (kw_server w); cbn; rewrite (Hlive eq_refl); by (split; [|left]).
  - destruct (kw_kernel w) as [c|?|?|?] eqn:E; try exact Hs. destruct (live w); [|exact Hs].
    unfold stage, in_order. rewrite E. cbn. rewrite (Hlive eq_refl). by (split; [|left]).
  - destruct (kw_kernel w) as [[]|?|?|?] eqn:E; try exact Hs. destruct (live w); [|exact Hs].
    unfold stage, in_order. rewrite E. cbn. rewrite (Hlive eq_refl). by (split; [|left]).
  - destruct (kw_kernel w) as [c|?|?|?] eqn:E; try exact Hs. destruct (live w); [|exact Hs].
    unfold stage, in_order. rewrite E. cbn. rewrite (Hlive eq_refl). by (split; [|left]).
  - destruct (kw_kernel w) as [c|?|?|?] eqn:E; try exact Hs. destruct (live w); [|exact Hs].
    unfold stage, in_order. rewrite E. cbn. rewrite (Hlive eq_refl). by (split; [|left]).
  - destruct (kw_kernel w) as [c|?|?|?] eqn:E; try exact Hs. destruct (live w); [|exact Hs].
    unfold stage, in_order. cbn. rewrite E, (Hlive eq_refl). split; [done|right; by eexists].
Qed.
Lemma stage_run es : ∀ w, Forall kernel_first es → in_order w →
  stage (krun w es).1 = stage w ++ ends (krun w es).2.
Proof.
  induction es as [|e es IH]; intros w Hf Hw; [cbn; by rewrite app_nil_r|]. apply Forall_cons in Hf as [Hf1 Hf2].
  rewrite krun_cons. cbn [fst snd]. destruct (stage_step w e Hf1 Hw) as [E1 Hw1]. rewrite IH by done. rewrite E1.
  unfold ends. rewrite filter_app. by rewrite (assoc_L (++)).
Qed.

(** After a failure the executor ends with an error. *)
Definition failing (w : kworld) : Prop :=
  match kw_kernel w with
  | KRun _ => False
  | KStopping res | KOnStop res | KDone res => res ≠ XOk
  end ∧ (kw_out w ≠ Some XOk).
Lemma failing_step w e : kernel_first e → failing w → failing (kstep w e).1 ∧ (kstep w e).2 ≠ Some (OReturned XOk).
Proof.
  intros Hk Hw. assert (Hs : failing w ∧ @None kobs ≠ Some (OReturned XOk)) by done.
  destruct e as [t r|t r|i|o| |r| |j|i ok|i| | | |ok| |ok]; try done; cbn [kstep].
  - destruct (map_has (mk_ckey t (session_cid r)) (kw_map w)), (running (kw_server w)); exact Hs.
  - destruct (running (kw_server w)); exact Hs.
  - destruct (kw_subs w !! i) as [s|]; [destruct (s_open s)|]; exact Hs.
  - destruct (kw_server w); try exact Hs. destruct (kw_requests w) as [|[t r] rest]; [exact Hs|]. destruct (bool_decide _); [exact Hs|].
    destruct r; try (destruct o; exact Hs); exact Hs.
  - destruct (kw_server w); exact Hs.
  - destruct r; exact Hs.
  - destruct (kw_server w); exact Hs.
  - unfold failing in Hw. destruct (kw_kernel w) as [c|?|?|?] eqn:E; try exact Hs. by destruct Hw.
  - unfold failing in Hw. destruct (kw_kernel w) as [c|?|?|?] eqn:E; try exact Hs. by destruct Hw.
  - unfold failing in Hw. destruct (kw_kernel w) as [c|?|?|?] eqn:E; try exact Hs. by destruct Hw.
  - unfold failing in Hw. destruct (kw_kernel w) as [c|?|?|?] eqn:E; try exact Hs. by destruct Hw.
  - unfold failing in Hw. destruct (kw_kernel w) as [c|?|?|?] eqn:E; try exact Hs. by destruct Hw.
  - unfold failing in Hw. destruct (kw_kernel w) as [c|res|?|?] eqn:E; try exact Hs. destruct (live w); [|exact Hs].
    unfold failing. cbn. split; [done|done].
  - unfold failing in Hw. destruct (kw_kernel w) as [c|?|res|?] eqn:E; try exact Hs. destruct (live w); [|exact Hs].
    unfold failing. cbn. destruct Hw as [Hr Ho]. split; [|done]. split; [|done]. by destruct res.
  - unfold failing in Hw. destruct (kw_kernel w) as [c|?|?|res] eqn:E; try exact Hs. destruct (live w); [|exact Hs].
    unfold failing. cbn. rewrite E. destruct Hw as [Hr Ho]. split; [split; [done|]|]; congruence.
Qed.
Lemma failing_run es : ∀ w, Forall kernel_first es → failing w → OReturned XOk ∉ (krun w es).2.
Proof.
  induction es as [|e es IH]; intros w Hf Hw; [apply not_elem_of_nil|]. apply Forall_cons in Hf as [Hf1 Hf2].
  rewrite krun_cons. cbn [snd]. destruct (failing_step w e Hf1 Hw) as [H1 H2]. intros [H|H]%elem_of_app; [|by eapply IH].
  destruct (kstep w e).2 as [o|]; [|by apply elem_of_nil in H]. apply elem_of_list_singleton in H. congruence.
Qed.

(** ** The limit *)
Definition full (w : kworld) : Prop := ∃ n, kw_limit w = Some (S n) ∧ (S n ≤ length (kw_running w))%nat.
Lemma full_step w e : no_handler_ends e → full w → full (kstep w e).1 ∧ match (kstep w e).2 with Some (OSub _ _) | Some (OKernel _) => False | _ => True end.
Proof.
  intros Hk Hw. assert (Hs : full w ∧ match @None kobs with Some (OSub _ _) | Some (OKernel _) => False | _ => True end) by done.
  destruct e as [t r|t r|i|o| |r| |j|i ok|i| | | |ok| |ok]; try done; cbn [kstep].
  - destruct (map_has (mk_ckey t (session_cid r)) (kw_map w)), (running (kw_server w)); exact Hs.
  - destruct (running (kw_server w)); exact Hs.
  - destruct (kw_subs w !! i) as [s|]; [destruct (s_open s)|]; exact Hs.
  - destruct (kw_server w); try exact Hs. destruct (kw_requests w) as [|[t r] rest]; [exact Hs|]. destruct (bool_decide _); [exact Hs|].
    destruct r; try (destruct o; exact Hs); exact Hs.
  - destruct (kw_server w); exact Hs.
  - destruct r; exact Hs.
  - destruct (kw_server w); exact Hs.
  - assert (Er : room w = false). { destruct Hw as (n & E & Hn). unfold room. rewrite E. lia. }
    rewrite Er, andb_false_r. destruct (kw_kernel w), (kw_results w); exact Hs.
  - destruct (kw_kernel w), (kw_running w !! i) as [[r []]|]; try exact Hs. destruct (live w), (kw_server w); exact Hs.
  - destruct (kw_kernel w), (live w); exact Hs.
  - destruct (kw_kernel w) as [[]|?|?|?], (live w); exact Hs.
  - destruct (kw_kernel w), (live w); exact Hs.
  - destruct (kw_kernel w), (live w); exact Hs.
  - destruct (kw_kernel w), (live w); exact Hs.
  - destruct (kw_server w), (live w); try exact Hs; destruct ok; exact Hs.
Qed.
Lemma full_run es : ∀ w, Forall no_handler_ends es → full w → handed (krun w es).2 = [].
Proof.
  induction es as [|e es IH]; intros w Hf Hw; [done|]. apply Forall_cons in Hf as [Hf1 Hf2]. rewrite krun_cons. cbn [snd].
  destruct (full_step w e Hf1 Hw) as [H1 H2]. unfold handed. rewrite omap_app. fold (handed (krun (kstep w e).1 es).2). rewrite IH by done.
  pose proof (handed_none _ H2) as E. unfold handed in E. by rewrite E.
Qed.

(** ** A subscription the node produces nothing for *)
Definition quiet (t : N) (x : option N) (w : kworld) : Prop :=
  Forall (λ r, ¬ concerns r (mk_ckey t x)) (kw_results w) ∧ Forall (λ q, q.1 ≠ t ∨ q.2 = RShutdown) (kw_requests w).
Lemma not_concerns_ticket t t' x c r : callback_key r = Some (mk_ckey t' c) → t' ≠ t → ¬ concerns r (mk_ckey t x).
Proof. intros E Hn (c' & E' & _). rewrite E in E'. injection E' as -> _. by apply Hn. Qed.
Lemma shutdown_not_concerns k : ¬ concerns Shutdown k.
Proof. by intros (c & H & _). Qed.
Lemma quiet_emit t x w r : quiet t x w → ¬ concerns r (mk_ckey t x) → quiet t x (emit r w).
Proof. intros [H1 H2] H. split; [|done]. cbn. apply Forall_app. split; [done|by apply Forall_singleton]. Qed.
Lemma quiet_step t x w e :
  quiet t x w → silent (mk_ckey t x) e → other_ticket t e → fresh [t] [e] →
  quiet t x (kstep w e).1 ∧ Forall (λ r, ¬ concerns r (mk_ckey t x)) (handed (option_list (kstep w e).2)).
Proof.
  intros Hq Hs Ht Hf. set (P := λ r, ¬ concerns r (mk_ckey t x)). assert (Hn : Forall P []) by constructor.
  assert (Hadd : ∀ w' t' r, kw_results w' = kw_results w → kw_requests w' = kw_requests w ++ [(t', r)] → t' ≠ t ∨ r = RShutdown → quiet t x w').
  { intros w' t' r E1 E2 H. destruct Hq as [Hq1 Hq2]. unfold quiet. rewrite E1, E2. split; [done|]. apply Forall_app. split; [done|by apply Forall_singleton]. }
  assert (Hsame : ∀ w', kw_results w' = kw_results w → kw_requests w' = kw_requests w → quiet t x w').
  { intros w' E1 E2. unfold quiet. by rewrite E1, E2. }
  destruct e as [t' r|t' r|i|o| |r| |j|i ok|i| | | |ok| |ok]; cbn [kstep].
  - destruct Hf as [Hf _]. assert (t' ≠ t) by (intros ->; apply Hf; by left).
    destruct (map_has (mk_ckey t' (session_cid r)) (kw_map w)), (running (kw_server w)); (split; [|exact Hn]);
      first [by apply Hsame | by apply (Hadd _ t' r); [..|left]].
  - destruct (running (kw_server w)); (split; [|exact Hn]); first [by apply Hsame | by apply (Hadd _ t' r); [..|left]].
  - destruct (kw_subs w !! i) as [s|]; [destruct (s_open s)|]; (split; [|exact Hn]); by apply Hsame.
  - destruct (kw_server w); [|split; [done|exact Hn]..].
    destruct (kw_requests w) as [|[t' r] rest] eqn:Eq; [split; [done|exact Hn]|].
    assert (Hw : quiet t x (set_requests rest w) ∧ (t' ≠ t ∨ r = RShutdown)).
    { destruct Hq as [H1 H2]. rewrite Eq in H2. apply Forall_cons in H2 as [H2 H3]. done. }
    destruct Hw as [Hw Hr].
    destruct (bool_decide (session_cid r = Some 0%N)) eqn:Eb.
    { split; [|exact Hn]. apply quiet_emit; [done|]. destruct Hr as [Hr| ->]; [by apply (not_concerns_ticket _ t' _ None)|]. done. }
    destruct r; try (destruct o); (split; [|exact Hn]); cbn [fst]; try exact Hw;
      first [ (apply quiet_emit; [exact Hw|]; destruct Hr as [Hr|Hr]; [|discriminate Hr]; by eapply (not_concerns_ticket _ t'))
            | apply (quiet_emit t x (set_requests rest w)); [exact Hw|apply shutdown_not_concerns] ].
  - destruct (kw_server w); (split; [|exact Hn]); try done. cbn [fst].
    apply (quiet_emit t x w Shutdown); [done|apply shutdown_not_concerns].
  - destruct r; (split; [|exact Hn]); cbn [fst]; try done; by apply quiet_emit.
  - destruct (kw_server w); (split; [|exact Hn]); done.
  - pose proof (dispatch_spec w j) as H. cbn [kstep] in H.
    match goal with |- quiet t x (?p).1 ∧ _ => set (q := p) in *; destruct q as [w1 o] eqn:Eq0 end. cbn [fst snd].
    destruct H as [[-> ->]|(r & rest & clean & Ek & El & Er & Er' & _ & _ & _ & H)]; [split; [done|exact Hn]|].
    destruct Hq as [Hq1 Hq2]. rewrite Er in Hq1. apply Forall_cons in Hq1 as [Hr Hrest].
    assert (Hw1 : kw_requests w1 = kw_requests w).
    { subst q. rewrite Ek, Er, El in Eq0. cbn [andb] in Eq0. destruct (room w); [|by injection Eq0 as <- _].
      destruct r; try (destruct (find_sub _ _ _)); injection Eq0 as <- _; done. }
    split; [split; [by rewrite Er'|by rewrite Hw1]|].
    destruct H as [(-> & -> & _)|(_ & _ & H)]; [exact Hn|].
    destruct (find_sub j w r); destruct H as [-> _]; cbn; by apply Forall_singleton.
  - destruct (kw_kernel w), (kw_running w !! i) as [[r []]|]; try (split; [done|exact Hn]). destruct (live w); (split; [|exact Hn]); done.
  - destruct (kw_kernel w), (kw_running w !! i) as [[r []]|]; try (split; [done|exact Hn]). destruct (live w); [|split; [done|exact Hn]].
    destruct (kw_server w); (split; [|exact Hn]); try done. apply (Hadd _ 0%N RShutdown); [done..|by right].
  - destruct (kw_kernel w), (live w); (split; [|exact Hn]); done.
  - destruct (kw_kernel w) as [[]|?|?|?], (live w); (split; [|exact Hn]); done.
  - destruct (kw_kernel w), (live w); (split; [|exact Hn]); done.
  - destruct (kw_kernel w), (live w); (split; [|exact Hn]); done.
  - destruct (kw_kernel w), (live w); (split; [|exact Hn]); done.
  - destruct (kw_server w), (live w); (split; [|exact Hn]); done.
Qed.
Lemma fresh_less used used' es : used' ⊆ used → fresh used es → fresh used' es.
Proof.
  revert used used'. induction es as [|e es IH]; intros used used' Hs H; [done|]. destruct e; cbn in *; try by eapply IH.
  destruct H as [H1 H2]. split; [intros H; by apply H1, Hs|]. eapply IH; [|exact H2]. set_solver.
Qed.
Lemma quiet_run t x es : ∀ w,
  quiet t x w → Forall (silent (mk_ckey t x)) es → Forall (other_ticket t) es → fresh [t] es →
  quiet t x (krun w es).1 ∧ Forall (λ r, ¬ concerns r (mk_ckey t x)) (handed (krun w es).2).
Proof.
  induction es as [|e es IH]; intros w Hq Hs Ht Hf; [split; [done|constructor]|].
  apply Forall_cons in Hs as [Hs1 Hs2]. apply Forall_cons in Ht as [Ht1 Ht2]. apply fresh_cons in Hf as [Hf1 Hf2].
  destruct (quiet_step t x w e Hq Hs1 Ht1 Hf1) as [Hq1 Ho]. destruct (IH _ Hq1 Hs2 Ht2) as [Hq2 Ho2].
  { eapply fresh_less; [|exact Hf2]. destruct e; cbn; set_solver. }
  rewrite krun_cons. cbn [fst snd]. split; [done|]. unfold handed. rewrite omap_app. apply Forall_app. done.
Qed.
Lemma filter_nothing {A} (P : A → Prop) `{∀ x, Decision (P x)} l : Forall (λ x, ¬ P x) l → filter P l = [].
Proof. induction 1; [done|]. rewrite filter_cons_False by done. done. Qed.

(** ** Answers *)
Lemma answer_some c got r : r ∈ got → consume c r ≠ None → answer c got ≠ None.
Proof.
  intros Hr Hc. induction got as [|r' got IH]; [by apply elem_of_nil in Hr|]. cbn.
  destruct (consume c r') as [b|] eqn:E; [done|]. apply elem_of_cons in Hr as [->|Hr]; [done|by apply IH].
Qed.
Lemma answer_app c l1 l2 : answer c l1 = None → answer c (l1 ++ l2) = answer c l2.
Proof. induction l1 as [|r l IH]; [done|]. cbn. destruct (consume c r); [done|by apply IH]. Qed.

Lemma limit_step w e : kw_limit (kstep w e).1 = kw_limit w.
Proof.
  destruct e as [t r|t r|i|o| |r| |j|i ok|i| | | |ok| |ok]; cbn [kstep].
  - destruct (map_has (mk_ckey t (session_cid r)) (kw_map w)), (running (kw_server w)); done.
  - destruct (running (kw_server w)); done.
  - destruct (kw_subs w !! i) as [s|]; [destruct (s_open s)|]; done.
  - destruct (kw_server w); try done. destruct (kw_requests w) as [|[t r] rest]; [done|]. destruct (bool_decide _); [done|].
    destruct r; try (destruct o; done); done.
  - destruct (kw_server w); done.
  - destruct r; done.
  - destruct (kw_server w); done.
  - pose proof (dispatch_spec w j) as H. cbn [kstep] in H.
    match goal with |- kw_limit (?p).1 = _ => destruct p as [w1 o] end. cbn [fst].
    destruct H as [[-> ->]|(r & rest & clean & _ & _ & _ & _ & _ & H & _)]; done.
  - destruct (kw_kernel w), (kw_running w !! i) as [[r []]|]; try done. destruct (live w); done.
  - destruct (kw_kernel w), (kw_running w !! i) as [[r []]|]; try done. destruct (live w), (kw_server w); done.
  - destruct (kw_kernel w), (live w); done.
  - destruct (kw_kernel w) as [[]|?|?|?], (live w); done.
  - destruct (kw_kernel w), (live w); done.
  - destruct (kw_kernel w), (live w); done.
  - destruct (kw_kernel w), (live w); done.
  - destruct (kw_server w), (live w); done.
Qed.
Lemma limit_run es : ∀ w, kw_limit (krun w es).1 = kw_limit w.
Proof. induction es as [|e es IH]; intros w; [done|]. rewrite krun_cons. cbn [fst]. by rewrite IH, limit_step. Qed.
