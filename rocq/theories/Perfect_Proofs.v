(** Proofs about the versions that protect the messages riding on re-keys. *)
From Coq Require Import ZifyBool ZifyNat ZifyN.
From stdpp Require Import prelude gmap.
From Coq Require Import Sorted.
From Verif Require Import Rekey_Model Rekey_Spec Rekey_Proofs Perfect_Spec.
Local Open Scope N_scope.

Section proofs.
Context (MAX : nat) (HMAX : (3 ≤ MAX)%nat).

Lemma inv_decl nd out s :
  inv MAX nd out →
  n_declared (nd s) ≤ n_latest (nd s) + 1 ∧ n_latest (nd s) ≤ n_declared (nd s) ∧
  (pending (n_trig (nd s)) → n_declared (nd s) = n_latest (nd s)).
Proof using HMAX.
  assert (Hb : ∀ v n, base v n → n_declared n ≤ n_latest n + 1 ∧ n_latest n ≤ n_declared n ∧
                (pending (n_trig n) → n_declared n = n_latest n)).
  { intros v n [H1 _ H3 _ H5]. rewrite H1. split_and!; [lia..|done]. }
  assert (Hx : ∀ v n, xst v n → n_declared n ≤ n_latest n + 1 ∧ n_latest n ≤ n_declared n ∧
                (pending (n_trig n) → n_declared n = n_latest n)).
  { intros v n [H1 _ H3 H4]. rewrite H1, H3, H4. split_and!; [lia..|done]. }
  intros [v ring R1 R2 Hin Hring Hown Hr1 Hr2 Hw
    |x v ring c b q1 q2 R1 R2 Hin Hrx Hry Hxs Hcx Hrox Htx Hox Hbs Hroy Hoy F1 F2 Hlive W1 W2
    |x v ring ring' R1 R2 R3 Hin Hrx Hry Hox Hxs Hcx Hrox Hbs Hroy F W1 W2
    |x v ring q2 q3 R1 R2 R3 Hin Hring Hxs Hcx Hrox Hox Hown Hroy Hoy F W1 W2 W3].
  - exact (Hb _ _ (o_base _ _ _ (Hown s))).
  - destruct (bool_either s x) as [-> | ->]; eauto.
  - destruct (bool_either s x) as [-> | ->]; eauto.
  - destruct (bool_either s x) as [-> | ->]; [by eauto|]. exact (Hb _ _ (o_base _ _ _ Hown)).
Qed.

Lemma receive_declared n ans m n' o oc :
  receive MAX n ans m = (n', o, oc) → oc ≠ Failed →
  n_trig n' = n_trig n ∧ (oc = Continue → n_declared n' = n_declared n) ∧ (oc = Done → n_declared n' = n_latest n').
Proof using HMAX.
  unfold receive. destruct (on_message MAX n ans m) as [[n1 o1] oc1] eqn:E. intros [= <- <- <-] Hf.
  assert (H : n_trig n1 = n_trig n ∧ (oc1 = Continue → n_declared n1 = n_declared n) ∧ (oc1 = Done → n_declared n1 = n_latest n1)).
  { destruct m; cbn [on_message] in E;
      unfold on_alice_to_bob, on_bob_to_alice, on_truncate, on_leader_can_finish, on_loser_can_finish,
        loser_finish, skip, update_as_bob, update_as_alice, sync_declared_version, post_alice_stage1 in E;
      repeat case_match; simplify_eq; cbn; split_and!; done. }
  destruct H as (H1 & H2 & H3). destruct oc1; [| |done]; split_and!; auto; done.
Qed.

Definition below (U : list N) (n : node) : Prop :=
  (∀ u, u ∈ U → u < n_declared n) ∧
  (∀ c m l, n_trig n = TReady c m l → l < n_declared n ∧ ∀ u, u ∈ U → u < l).

Lemma piece_below U n n' out :
  (pending (n_trig n) → n_declared n = n_latest n) → n_latest n ≤ n_declared n →
  piece n n' out → (∀ m c l, n_trig n = TReady c m l → n' = n) → below U n → below U n'.
Proof using HMAX.
  intros Hp Hle Hpc Hr [H1 H2].
  destruct (n_trig n) as [|m|c0 m|c0 m l|c0 m l] eqn:Et; [..|rewrite (Hr m c0 l eq_refl); split; rewrite ?Et; auto];
    destruct Hpc; unfold trigger_start, trigger_give_up, trigger_constructor, trigger_latest, trigger_declare, trigger_send;
    rewrite Et; cbn; repeat case_match; cbn; (split; cbn; [|rewrite ?Et; try done]);
    try done.
  - specialize (Hp I). intros u Hu. specialize (H1 u Hu). lia.
  - specialize (Hp I). intros c m' l' [= <- <- <-]. split; [lia|]. intros u Hu. specialize (H1 u Hu). lia.
  - specialize (Hp I). intros u Hu. specialize (H1 u Hu). cbn. lia.
Qed.

Lemma below_step U w e s :
  inv MAX (w_node w) (w_out w) → prompt e → below U (w_node w s) →
  below (U ++ option_list (named w s e)) (w_node (rstep MAX w e).1 s) ∧
  (∀ l u, named w s e = Some l → u ∈ U → u < l).
Proof using HMAX.
  intros Hi Hp Hb.
  destruct (inv_decl _ _ s Hi) as (D1 & D2 & D3).
  assert (Hpiece : ∀ t n' o, piece (w_node w t) n' o →
     (∀ m c l, n_trig (w_node w s) = TReady c m l → n' = w_node w s ∨ t ≠ s) →
     below U (upd (w_node w) t n' s)).
  { intros t n' o Hpc Hr. destruct (bool_either s t) as [-> | ->]; [|by rewrite upd_other].
    rewrite upd_same. eapply piece_below; [exact D3|exact D2|exact Hpc| |exact Hb].
    intros m c l E. destruct (Hr m c l E); done. }
  assert (Hready : ∀ t (f : node → node) m c l, (n_trig (w_node w t) = TReady c m l → f (w_node w t) = w_node w t) →
     n_trig (w_node w s) = TReady c m l → f (w_node w t) = w_node w s ∨ t ≠ s).
  { intros t f m c l Hf E. destruct (decide (t = s)) as [->|]; [left; auto|by right]. }
  destruct e as [t p|t|t|t|t|t|t|t|t]; cbn [rstep fst named option_list w_node]; rewrite ?app_nil_r;
    [..|done|done].
  - split; [|done]. eapply Hpiece; [constructor|]. intros m c l. apply (Hready t (λ n, trigger_start n p)). intros E.
    unfold trigger_start. by rewrite E.
  - split; [|done]. eapply Hpiece; [constructor|]. intros m c l. apply (Hready t trigger_give_up). intros E.
    unfold trigger_give_up. by rewrite E.
  - split; [|done]. eapply Hpiece; [constructor|]. intros m c l.
    apply (Hready t (λ n, trigger_constructor n (w_fresh w))). intros E.
    unfold trigger_constructor. by rewrite E.
  - split; [|done]. eapply Hpiece; [constructor|]. intros m c l. apply (Hready t trigger_latest). intros E.
    unfold trigger_latest. by rewrite E.
  - split; [|done]. eapply Hpiece; [constructor|]. intros m c l. apply (Hready t trigger_declare). intros E.
    unfold trigger_declare. by rewrite E.
  - destruct (trigger_send (w_node w t)) as [n o] eqn:E. cbn [fst w_node].
    destruct (bool_either s t) as [-> | ->].
    + rewrite upd_same, eqb_reflx. unfold trigger_send in E.
      destruct (n_trig (w_node w t)) as [|m|c0 m|c0 m l|c0 m l] eqn:Et;
        injection E as <- <-; cbn [option_list]; rewrite ?app_nil_r; try done.
      destruct Hb as [H1 H2]. destruct (H2 _ _ _ Et) as [H3 H4]. split.
      * split; cbn; [|done]. intros u [Hu|Hu%elem_of_list_singleton]%elem_of_app; [by apply H1|by subst].
      * intros l' u [= <-]. apply H4.
    + rewrite upd_other. replace (Bool.eqb t (negb t)) with false by (by destruct t).
      cbn [option_list]. by rewrite app_nil_r.
  - split; [|done].
    destruct (rstep MAX w (Deliver t)) as [w' ob] eqn:Est.
    destruct (inv_step MAX HMAX _ _ _ _ Hi Hp Est) as (_ & Hf & Hv).
    specialize (Hv s). unfold version in Hv.
    cbn [rstep] in Est. destruct (w_out w (negb t)) as [|m rest] eqn:Em; [done|].
    destruct (receive MAX (w_node w t) (w_fresh w) m) as [[n o] oc] eqn:Er.
    injection Est as <- <-. cbn [fst w_node] in *.
    destruct (bool_either s t) as [-> | ->]; [|by rewrite upd_other].
    rewrite upd_same in *.
    destruct (receive_declared _ _ _ _ _ _ Er) as (R1 & R2 & R3). { intros ->. by apply (Hf t). }
    assert (Hmono : n_declared (w_node w t) ≤ n_declared n).
    { destruct oc; [rewrite R2 by done; lia| |by destruct (Hf t)].
      rewrite R3 by done. rewrite Hv, bool_decide_true by done. lia. }
    destruct Hb as [H1 H2]. split.
    + intros u Hu. specialize (H1 u Hu). lia.
    + intros c m' l E. rewrite R1 in E. destruct (H2 _ _ _ E). split; [lia|done].
Qed.

Lemma along_cons f w s e es : along MAX f w s (e :: es) = option_list (f w s e) ++ along MAX f (rstep MAX w e).1 s es.
Proof using HMAX. done. Qed.

Lemma sorted_snoc U l : StronglySorted N.lt U → (∀ u, u ∈ U → u < l) → StronglySorted N.lt (U ++ [l]).
Proof using HMAX.
  induction U as [|x U IH]; intros H Hl; cbn; [by repeat constructor|].
  inversion H as [|? ? H1 H2]; subst. constructor.
  - apply IH; [done|]. intros u Hu. apply Hl. by right.
  - apply Forall_app. split; [done|]. constructor; [|constructor]. apply Hl. by left.
Qed.

Lemma named_sorted es : ∀ U w s,
  inv MAX (w_node w) (w_out w) → Forall prompt es → below U (w_node w s) → StronglySorted N.lt U →
  StronglySorted N.lt (U ++ along MAX named w s es).
Proof using HMAX.
  induction es as [|e es IH]; intros U w s Hi Hp Hb Hs; cbn [along]; [by rewrite app_nil_r|].
  apply Forall_cons in Hp as [Hp Hps].
  destruct (below_step U w e s Hi Hp Hb) as [Hb' Hl].
  rewrite app_assoc. apply IH; try done.
  - destruct (rstep MAX w e) as [w1 ob] eqn:E. by destruct (inv_step MAX HMAX _ _ _ _ Hi Hp E).
  - destruct (named w s e) as [l|]; cbn; [|by rewrite app_nil_r]. apply sorted_snoc; [done|]. intros u. by apply Hl.
Qed.

Lemma ready_step w e s c m l :
  inv MAX (w_node w) (w_out w) → prompt e →
  (∀ c m l, n_trig (w_node w s) = TReady c m l → l = n_latest (w_node w s) ∧ e = Send s) →
  n_trig (w_node (rstep MAX w e).1 s) = TReady c m l →
  e = Declare s ∧ l = n_latest (w_node (rstep MAX w e).1 s).
Proof using HMAX.
  intros Hi Hp Hr.
  destruct e as [t p|t|t|t|t|t|t|t|t]; cbn [rstep fst w_node]; [..|done|done];
    try (destruct (bool_either s t) as [-> | ->];
         [rewrite upd_same|rewrite upd_other; intros E; by destruct (Hr _ _ _ E)]).
  - unfold trigger_start. destruct (n_trig (w_node w t)) eqn:Et; [..|by destruct (Hr _ _ _ eq_refl)];
      repeat case_match; cbn; rewrite ?Et; done.
  - unfold trigger_give_up. destruct (n_trig (w_node w t)) eqn:Et; [..|by destruct (Hr _ _ _ eq_refl)];
      repeat case_match; cbn; rewrite ?Et; done.
  - unfold trigger_constructor. destruct (n_trig (w_node w t)) eqn:Et; [..|by destruct (Hr _ _ _ eq_refl)];
      repeat case_match; cbn; rewrite ?Et; done.
  - unfold trigger_latest. destruct (n_trig (w_node w t)) eqn:Et; [..|by destruct (Hr _ _ _ eq_refl)];
      repeat case_match; cbn; rewrite ?Et; done.
  - unfold trigger_declare. destruct (n_trig (w_node w t)) eqn:Et; [..|by destruct (Hr _ _ _ eq_refl)]; rewrite ?Et; try done.
    cbn. destruct (N.eqb_spec latest (n_latest (w_node w t))); cbn; [|done]. by intros [= <- <- <-].
  - destruct (trigger_send (w_node w t)) as [n o] eqn:E. cbn [fst w_node].
    destruct (bool_either s t) as [-> | ->].
    + rewrite upd_same. unfold trigger_send in E.
      destruct (n_trig (w_node w t)) eqn:Et; injection E as <- <-; cbn; rewrite ?Et; done.
    + rewrite upd_other. intros E'. destruct (Hr _ _ _ E') as [_ E2]. exfalso. injection E2. by destruct t.
  - destruct (rstep MAX w (Deliver t)) as [w' ob] eqn:Est.
    destruct (inv_step MAX HMAX _ _ _ _ Hi Hp Est) as (_ & Hf & _).
    cbn [rstep] in Est. destruct (w_out w (negb t)) as [|m' rest] eqn:Em.
    { injection Est as <- <-. intros E. by destruct (Hr _ _ _ E). }
    destruct (receive MAX (w_node w t) (w_fresh w) m') as [[n o] oc] eqn:Er.
    injection Est as <- <-. cbn [fst w_node] in *.
    destruct (bool_either s t) as [-> | ->]; [|rewrite upd_other; intros E; by destruct (Hr _ _ _ E)].
    rewrite upd_same. destruct (receive_declared _ _ _ _ _ _ Er) as (R1 & _). { intros ->. by apply (Hf t). }
    rewrite R1. intros E. by destruct (Hr _ _ _ E).
Qed.

Lemma used_named es : ∀ w s,
  inv MAX (w_node w) (w_out w) → Forall prompt es → at_once s es →
  (∀ c m l, n_trig (w_node w s) = TReady c m l → l = n_latest (w_node w s) ∧ (es = [] ∨ ∃ rest, es = Send s :: rest)) →
  along MAX used w s es = along MAX named w s es.
Proof using HMAX.
  induction es as [|e es IH]; intros w s Hi Hp Ha Hr; cbn [along]; [done|].
  apply Forall_cons in Hp as [Hp Hps]. destruct Ha as [Ha Has].
  assert (Hr' : ∀ c m l, n_trig (w_node w s) = TReady c m l → l = n_latest (w_node w s) ∧ e = Send s).
  { intros c m l E. destruct (Hr _ _ _ E) as [H1 [H2|[rest [= H2 _]]]]; done. }
  assert (Hu : used w s e = named w s e).
  { unfold used, named. destruct e; try done. destruct (Bool.eqb _ _); [|done].
    destruct (n_trig (w_node w s)) eqn:Et; try done.
    destruct (Hr' _ _ _ eq_refl) as [-> _]. apply current_ratchet_some.
    destruct (inv_shape MAX HMAX _ _ Hi) as (x & _ & H & _). destruct (H s) as (k & K1 & K2).
    destruct (bool_either s x) as [-> | ->]; by eexists. }
  rewrite Hu. f_equal. apply IH; try done.
  - destruct (rstep MAX w e) as [w1 ob] eqn:E. by destruct (inv_step MAX HMAX _ _ _ _ Hi Hp E).
  - intros c m l E. destruct (ready_step w e s c m l Hi Hp Hr' E) as [He ->]. split; [done|].
    right. by apply Ha.
Qed.

Lemma sorted_nodup U : StronglySorted N.lt U → NoDup U.
Proof using HMAX.
  induction 1 as [|x U H IH HF]; constructor; [|done].
  intros Hin. eapply Forall_forall in HF; [|exact Hin]. lia.
Qed.
End proofs.
