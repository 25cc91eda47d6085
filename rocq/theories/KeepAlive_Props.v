(** C154-C156: keep-alives end the sessions they should. *)
From Coq Require Import ZArith Lia ZifyBool.
From stdpp Require Import prelude.
From Verif Require Import KeepAlive_Model KeepAlive_Spec.
Local Open Scope Z_scope.

Lemma krun_app k es es' : krun k (es ++ es') = match krun k es with Some k' => krun k' es' | None => None end.
Proof. revert k. induction es as [|e es IH]; intros k; [done|]. cbn. destruct (kstep k e); [apply IH|done]. Qed.
Lemma kstep_timeout k e k' : kstep k e = Some k' → ka_timeout k' = ka_timeout k.
Proof.
  destruct e as [now stamp|now|now]; cbn.
  - unfold on_keep_alive. destruct (ka_timeout k =? 0) eqn:E0; cbn; [by intros [= <-]|].
    destruct (ka_last k); [destruct (ka_timeout k <? _)|]; cbn; intros H;
      (destruct (_ || _) in H; [|done]) || idtac; by injection H as <-.
  - by intros [= <-].
  - destruct (_ && _); [done|]. by intros [= <-].
Qed.
Lemma krun_timeout k es k' : krun k es = Some k' → ka_timeout k' = ka_timeout k.
Proof.
  revert k. induction es as [|e es IH]; intros k; cbn; [by intros [= <-]|]. destruct (kstep k e) as [k1|] eqn:E; [|done].
  intros H. rewrite (IH _ H). by apply kstep_timeout in E.
Qed.

(** between two keep-alives *)
Lemma meanwhile_ok k es u :
  (∀ e, e ∈ es → (match e with KeepAlive _ _ => False | _ => True end) ∧ at_time e ≤ u) →
  (∀ t, ka_last k = Some t → u - t ≤ ka_timeout k) →
  ∃ k', krun k es = Some k' ∧ ka_last k' = ka_last k ∧ ka_timeout k' = ka_timeout k.
Proof.
  revert k. induction es as [|e es IH]; intros k Hes Hl; [by exists k|].
  destruct (Hes e) as [He Hu]; [apply elem_of_list_here|]. cbn. destruct e as [? ?|now|now]; [done| |]; cbn.
  - destruct (IH (mk_ka (ka_timeout k) (ka_last k) (Z.max (ka_heard k) now))) as (k' & H1 & H2 & H3); [|done|by exists k'].
    intros e' H. apply Hes. by apply elem_of_list_further.
  - assert (timed_out k now = false) as Ht.
    { unfold timed_out. destruct (ka_last k) as [t|]; [|done]. specialize (Hl t eq_refl). cbn in Hu. clear -Hl Hu. lia. }
    rewrite Ht, andb_false_r. cbn. apply IH; [|done]. intros e' H. apply Hes. by apply elem_of_list_further.
Qed.
Lemma off_ok k es : ka_timeout k = 0 → is_Some (krun k es).
Proof.
  revert k. induction es as [|e es IH]; intros k H0; [by eexists|]. cbn.
  destruct e as [now stamp|now|now]; cbn; unfold on_keep_alive; rewrite ?H0; cbn; apply IH; done.
Qed.

(** C154: a session whose nodes are both alive is not ended by the keep-alives.  False: keep-alives come every half hour,
    whatever timeout the user has asked for. *)
Theorem C154_refuted :
  ¬ (∀ d ahead sent rs, 0 < d → d mod second = 0 → prompt 0 ahead sent rs → ahead = 0 →
       is_Some (krun (ka_init (timeout_of (Some d)) sent) (exchange ahead sent rs))).
Proof.
  intros H. specialize (H (60 * second) 0 0 [mk_round 0 0 [Check interval]]).
  destruct H as [k Hk]; [done|done| |done|vm_compute in Hk; discriminate Hk].
  cbn [prompt there back meanwhile]. split; [done|]. split; [done|]. split; [|done].
  intros e He. apply elem_of_list_singleton in He as ->. done.
Qed.
(** What holds: it is not if the timeout covers the half hour and the delays, and the difference of the clocks and a delay; and
    not if the user has switched keep-alives off. *)
Theorem C154_partial timeout delay ahead sent start rs :
  timeout = 0 ∨ (2 * (quarter + delay) ≤ timeout ∧ Z.abs ahead + delay ≤ timeout) → prompt delay ahead sent rs →
  is_Some (krun (ka_init timeout start) (exchange ahead sent rs)).
Proof.
  intros [->|[Ht1 Ht2]]; [intros _; by apply off_ok|].
  assert (ka_timeout (ka_init timeout start) = timeout) as Hk by done. revert Hk.
  generalize (ka_init timeout start). intros k Hk Hp. revert k Hk sent Hp.
  induction rs as [|r rs IH]; intros k Hk sent Hp; [by eexists|].
  cbn [prompt] in Hp. destruct Hp as (Ha & Hb & Hm & Hp). cbn [exchange krun].
  assert (0 < quarter) as Hq by done.
  assert (∃ k1, kstep k (KeepAlive (sent + there r + ahead) sent) = Some k1 ∧ ka_timeout k1 = timeout ∧
            ∃ t, ka_last k1 = Some t ∧ sent + there r + ahead ≤ t) as (k1 & -> & Ht & t & Hl & Hge).
  { cbn. unfold on_keep_alive. rewrite Hk. cbn in Hk.
    replace (timeout =? 0) with false by lia.
    replace (timeout <? Z.abs (sent + there r + ahead - sent)) with false by lia.
    destruct (ka_last k); cbn; (eexists; split; [reflexivity|]; split; [done|]; eexists; split; [reflexivity|];
      destruct (Z.ltb_spec (sent + there r + ahead - sent) 0); lia). }
  rewrite krun_app.
  destruct (meanwhile_ok k1 (meanwhile r) (sent + there r + quarter + back r + quarter + delay + ahead)) as (k2 & -> & _ & H2).
  - intros e He. destruct (Hm e He) as [? ?]. split; [done|lia].
  - intros t' [= ->]%(eq_trans (eq_sym Hl)). rewrite Ht. lia.
  - apply IH; [congruence|done].
Qed.
Example C154_example :
  prompt (10 * second) (-2 * second) 0 [mk_round second second [Check interval; Packet (2 * interval); Check (2 * interval)]] ∧
  krun (ka_init (timeout_of None) 0)
    (exchange (-2 * second) 0 [mk_round second second [Check interval; Packet (2 * interval); Check (2 * interval)]; mk_round 0 0 []])
  = Some (mk_ka default_timeout (Some (2 * (interval + second))) (2 * interval)).
Proof.
  split; [|vm_compute; reflexivity]. cbn [prompt there back meanwhile]. split; [done|]. split; [done|]. split; [|done].
  intros e He. rewrite !elem_of_cons, elem_of_nil in He. by destruct_or! He; subst.
Qed.
(** … nor is it while packets come in, however late the keep-alives are. *)
Lemma heard_step k e k' : kstep k e = Some k' → ka_heard k ≤ ka_heard k' ∧ (∀ t, e = Packet t → t ≤ ka_heard k').
Proof.
  destruct e as [now stamp|now|now]; cbn.
  - unfold on_keep_alive. destruct (ka_timeout k =? 0) eqn:E0; cbn; [by intros [= <-]|].
    destruct (ka_last k); [destruct (ka_timeout k <? _)|]; cbn; intros H;
      (destruct (_ || _) in H; [|done]) || idtac; by injection H as <-.
  - intros [= <-]. cbn. split; [lia|]. intros t [= ->]. lia.
  - destruct (_ && _); [done|]. by intros [= <-].
Qed.
Theorem C154_traffic timeout start es k t now stamp :
  krun (ka_init timeout start) es = Some k → Packet t ∈ es → now - t ≤ 60 * 1000000000 →
  is_Some (kstep k (Check now)) ∧ is_Some (kstep k (KeepAlive now stamp)).
Proof.
  intros Hr Hin Ht. assert (t ≤ ka_heard k) as Hh.
  { revert Hr Hin. generalize (ka_init timeout start). induction es as [|e es IH]; intros k0 Hr Hin; [by apply elem_of_nil in Hin|].
    cbn in Hr. destruct (kstep k0 e) as [k1|] eqn:E; [|done]. apply elem_of_cons in Hin as [He|Hin]; [|by eapply IH].
    destruct (heard_step _ _ _ E) as [_ H]. specialize (H _ (eq_sym He)). clear -H Hr. revert k1 Hr H.
    induction es as [|e es IH]; intros k1 Hr H; cbn in Hr; [by injection Hr as <-|].
    destruct (kstep k1 e) as [k2|] eqn:E; [|done]. apply (IH _ Hr). destruct (heard_step _ _ _ E) as [? _]. lia. }
  assert (∀ k', ka_heard k' = ka_heard k → expired k' now = false) as He.
  { intros k' E. unfold expired. rewrite E. change expire with (60 * 1000000000). lia. }
  cbn. split.
  - rewrite (He k eq_refl), andb_false_r. by eexists.
  - unfold on_keep_alive. destruct (ka_timeout k =? 0); cbn; [by eexists|].
    destruct (ka_last k); [destruct (ka_timeout k <? _)|]; cbn; rewrite ?(He k eq_refl), ?He by done; by eexists.
Qed.
Print Assumptions C154_traffic.
Print Assumptions C154_refuted.
Print Assumptions C154_partial.

(** C155: when the other node has gone, the session is ended some time after.  False: not if it goes before its first keep-alive
    has come, nor if the last one came late, and with a clock that is ahead as late as one likes. *)
Theorem C155_refuted :
  ¬ (∀ timeout start, 0 < timeout → ∃ limit, ∀ t, limit ≤ t → kstep (ka_init timeout start) (Check t) = None).
Proof.
  intros H. destruct (H default_timeout 0 eq_refl) as [limit Hl]. specialize (Hl limit (Z.le_refl _)).
  cbn in Hl. discriminate Hl.
Qed.
Theorem C155_late_refuted :
  ¬ (∀ timeout start now stamp now' stamp' packet k, 0 < timeout → start ≤ now ≤ packet → packet ≤ now' →
       krun (ka_init timeout start) [KeepAlive now stamp; Packet packet; KeepAlive now' stamp'] = Some k →
       ∃ limit, ∀ t, limit ≤ t → kstep k (Check t) = None).
Proof.
  intros H. destruct (H default_timeout 0 0 0 (2 * interval) (- 2 * interval) (2 * interval) (mk_ka default_timeout None (2 * interval))) as [limit Hl];
    [done|done|done|vm_compute; reflexivity|].
  specialize (Hl limit (Z.le_refl _)). cbn in Hl. discriminate Hl.
Qed.
Theorem C155_ahead_refuted :
  ¬ (∃ limit, ∀ stamp k, krun (ka_init default_timeout 0) [KeepAlive 0 stamp] = Some k → kstep k (Check limit) = None).
Proof.
  intros [limit H]. specialize (H (Z.max 1 limit)).
  assert (krun (ka_init default_timeout 0) [KeepAlive 0 (Z.max 1 limit)] = Some (mk_ka default_timeout (Some (Z.max 1 limit)) 0)) as E.
  { cbn. unfold on_keep_alive. cbn. replace (0 - Z.max 1 limit <? 0) with true by lia. done. }
  specialize (H _ E). cbn in H. unfold timed_out in H. cbn in H.
  replace (default_timeout <? limit - Z.max 1 limit) with false in H; [done|]. change default_timeout with 2700000000000. lia.
Qed.
(** What holds: it is ended by the first check after timeout and one minute, if the last keep-alive was not late. *)
Theorem C155_partial timeout start es k now stamp k1 os k2 last t :
  0 < timeout → krun (ka_init timeout start) es = Some k →
  kstep k (KeepAlive now stamp) = Some k1 → Z.abs (now - stamp) ≤ timeout →
  krun k1 os = Some k2 → (∀ e, e ∈ os → match e with KeepAlive _ _ => False | _ => True end) →
  start ≤ last → (∀ e, e ∈ es ++ os → at_time e ≤ last) →
  Z.max now stamp + timeout < t → last + 60 * 1000000000 < t →
  kstep k2 (Check t) = None.
Proof.
  intros Ht Hr Hk Hp Ho Hos Hs Hlast H1 H2.
  assert (∀ es' k0 k', krun k0 es' = Some k' → ka_heard k0 ≤ last → (∀ e, e ∈ es' → at_time e ≤ last) → ka_heard k' ≤ last) as Hheard.
  { clear. induction es' as [|e es' IH]; intros k0 k' Hr Hh He; cbn in Hr; [by injection Hr as <-|].
    destruct (kstep k0 e) as [k1|] eqn:E; [|done]. apply (IH _ _ Hr); [|intros e' H; apply He; by apply elem_of_list_further].
    specialize (He e (elem_of_list_here _ _)). destruct e as [now stamp|now|now]; cbn in E, He.
    - unfold on_keep_alive in E. destruct (ka_timeout k0 =? 0); cbn in E; [by injection E as <-|].
      destruct (ka_last k0); [destruct (ka_timeout k0 <? _)|]; cbn in E; (destruct (_ || _) in E; [|done]) || idtac; by injection E as <-.
    - injection E as <-. cbn. lia.
    - destruct (_ && _); [done|]. by injection E as <-. }
  assert (∀ es' k0 k', krun k0 es' = Some k' → (∀ e, e ∈ es' → match e with KeepAlive _ _ => False | _ => True end) → ka_last k' = ka_last k0) as Hsame.
  { clear. induction es' as [|e es' IH]; intros k0 k' Hr He; cbn in Hr; [by injection Hr as <-|].
    destruct (kstep k0 e) as [k1|] eqn:E; [|done]. rewrite (IH _ _ Hr); [|intros e' H; apply He; by apply elem_of_list_further].
    specialize (He e (elem_of_list_here _ _)). destruct e as [now stamp|now|now]; cbn in E; [done|by injection E as <-|].
    destruct (_ && _); [done|]. by injection E as <-. }
  assert (ka_timeout k = timeout) as Hkt by apply (krun_timeout _ _ _ Hr).
  assert (ka_heard k ≤ last) as Hkh.
  { apply (Hheard _ _ _ Hr); [done|]. intros e He. apply Hlast. apply elem_of_app. by left. }
  assert (k1 = mk_ka timeout (Some (Z.max now stamp)) (ka_heard k)) as ->.
  { cbn in Hk. unfold on_keep_alive in Hk. rewrite Hkt in Hk. replace (timeout =? 0) with false in Hk by lia.
    replace (timeout <? Z.abs (now - stamp)) with false in Hk by lia.
    replace (if now - stamp <? 0 then stamp else now) with (Z.max now stamp) in Hk by (destruct (Z.ltb_spec (now - stamp) 0); lia).
    destruct (ka_last k); cbn in Hk; by injection Hk as <-. }
  pose proof (krun_timeout _ _ _ Ho) as T2. pose proof (Hsame _ _ _ Ho Hos) as L2. cbn in T2, L2.
  assert (ka_heard k2 ≤ last) as Hh2.
  { apply (Hheard _ _ _ Ho); [done|]. intros e He. apply Hlast. apply elem_of_app. by right. }
  cbn. unfold timed_out, expired. rewrite T2, L2. change expire with (60 * 1000000000).
  replace (timeout =? 0) with false by lia. replace (timeout <? t - Z.max now stamp) with true by lia.
  replace (60 * 1000000000 <? t - ka_heard k2) with true by lia. done.
Qed.
Example C155_example :
  krun (ka_init default_timeout 0) [KeepAlive second second; Check interval; Check (2 * interval); Check (3 * interval)] ≠ None ∧
  krun (ka_init default_timeout 0) [KeepAlive second second; Check interval; Check (2 * interval); Check (3 * interval); Check (4 * interval)] = None.
Proof. split; vm_compute; [discriminate|reflexivity]. Qed.
Print Assumptions C155_refuted.
Print Assumptions C155_late_refuted.
Print Assumptions C155_ahead_refuted.
Print Assumptions C155_partial.

(** C156: the timeout is the one the user asked for, 45 minutes if they asked for none.  False: the longest there is becomes minus
    one second, so that the first check ends an idle session; one below a second switches keep-alives off. *)
Theorem C156_refuted :
  timeout_of (Some (18446744073709551615 * second + 999999999)) = - second ∧
  (∀ n, 0 ≤ n → krun (ka_init (- second) 0) [KeepAlive 0 0; Check (interval + n)] = None).
Proof.
  split; [vm_compute; reflexivity|]. intros n Hn. cbn [krun].
  change (kstep (ka_init (- second) 0) (KeepAlive 0 0)) with (Some (mk_ka (- second) (Some 0) 0)). cbv iota.
  assert (kstep (mk_ka (- second) (Some 0) 0) (Check (interval + n)) = None) as ->; [|done].
  unfold kstep, timed_out, expired. cbn [ka_last ka_timeout ka_heard]. change interval with 900000000000. unfold expire, second.
  replace (Z.opp 1000000000 <? 900000000000 + n - 0) with true by lia. replace (60 * 1000000000 <? 900000000000 + n - 0) with true by lia. reflexivity.
Qed.
Theorem C156_short_refuted : ¬ (∀ d, 0 < d → timeout_of (Some d) ≠ 0).
Proof. intros H. by apply (H 500000000). Qed.
(** What holds: whole seconds, up to 292 years, are taken as they are, others rounded down. *)
Theorem C156_partial d :
  timeout_of None = 45 * 60 * 1000000000 ∧
  (0 ≤ d < 2 ^ 63 → timeout_of (Some d) ≤ d < timeout_of (Some d) + 1000000000 ∧ timeout_of (Some d) mod 1000000000 = 0).
Proof.
  split; [done|]. intros Hd. change (2 ^ 63) with 9223372036854775808 in Hd. unfold timeout_of, wrap64, second.
  assert (0 ≤ d / 1000000000 < 9223372036854775808) as Hq by (split; [apply Z.div_pos; lia|apply Z.div_lt_upper_bound; lia]).
  pose proof (Z.div_mod d 1000000000 ltac:(done)) as E. pose proof (Z.mod_pos_bound d 1000000000 eq_refl) as Hm.
  rewrite (Z.mod_small (d / 1000000000 + _)) by lia. rewrite Z.add_simpl_r.
  rewrite (Z.mod_small (d / 1000000000 * 1000000000 + _)) by lia. rewrite Z.add_simpl_r. split; [lia|]. apply Z.mod_mul. done.
Qed.
Print Assumptions C156_refuted.
Print Assumptions C156_short_refuted.
Print Assumptions C156_partial.
