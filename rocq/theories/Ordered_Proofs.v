From Coq Require Import ZifyBool ZifyNat ZifyN.
From stdpp Require Import prelude gmap.
From Verif Require Import Ordered_Model Ordered_Spec.
Local Open Scope N_scope.

Section proofs.
Context {T : Type}.
Implicit Types (st : och T) (ops : list (op T)).

(** [k] = number of delivered packets. *)
Record Inv0 (st : och T) (seen : N -> T -> Prop) : Prop := {
  i_last : och_last st = match length (och_delivered st) with
                         | O => None | S k => Some (N.of_nat k) end;
  i_deliv : forall i p, och_delivered st !! i = Some p -> seen (N.of_nat i) p;
  i_map : forall i p, och_map st !! i = Some p ->
            seen i p /\ N.of_nat (length (och_delivered st)) <= i;
  i_rng : forall i p, seen i p -> i < 2 ^ 64 - 1;
}.

(** Full invariant for an open sink: nothing that arrived is missing. *)
Record Inv (st : och T) (seen : N -> T -> Prop) : Prop := {
  i_0 : Inv0 st seen;
  i_all : forall i p, seen i p ->
      i < N.of_nat (length (och_delivered st)) \/ is_Some (och_map st !! i);
  i_gap : och_map st !! N.of_nat (length (och_delivered st)) = None;
}.

Lemma wrapping_succ_small x : x < 2 ^ 64 - 1 -> wrapping_succ x = x + 1.
Proof. intros. unfold wrapping_succ. apply N.mod_small. lia. Qed.

Lemma next_expected st seen :
  Inv0 st seen ->
  match och_last st with Some r => wrapping_succ r | None => 0 end =
    N.of_nat (length (och_delivered st)).
Proof.
  intros H. rewrite (i_last _ _ H). pose proof (i_deliv _ _ H) as Hd. pose proof (i_rng _ _ H) as Hr.
  destruct (length (och_delivered st)) as [|k] eqn:E; [done|].
  destruct (lookup_lt_is_Some_2 (och_delivered st) k ltac:(lia)) as [p Hp].
  pose proof (Hr _ _ (Hd _ _ Hp)). rewrite wrapping_succ_small by done. lia.
Qed.

(** Delivering the next packet. *)
Lemma inv0_deliver st seen p :
  Inv0 st seen -> seen (N.of_nat (length (och_delivered st))) p ->
  och_map st !! N.of_nat (length (och_delivered st)) = None ->
  Inv0 (mk_och (och_map st) (Some (N.of_nat (length (och_delivered st)))) true (och_delivered st ++ [p])) seen.
Proof.
  intros [H1 H2 H3 H4] Hs Hm. constructor; cbn [och_map och_last och_delivered].
  - rewrite app_length. cbn. rewrite Nat.add_1_r. done.
  - intros i q Hq. apply lookup_app_Some in Hq as [Hq|[Hq1 Hq2]]; [by apply H2|].
    apply list_lookup_singleton_Some in Hq2 as [Hq2 <-].
    assert (i = length (och_delivered st)) as -> by lia. done.
  - intros i q Hq. destruct (H3 _ _ Hq) as [Ha Hb]. split; [done|].
    rewrite app_length. cbn. assert (i <> N.of_nat (length (och_delivered st))) by (intros ->; congruence). lia.
  - done.
Qed.

Lemma inv0_delete st seen i :
  Inv0 st seen -> Inv0 (mk_och (delete i (och_map st)) (och_last st) (och_sink_open st) (och_delivered st)) seen.
Proof.
  intros [H1 H2 H3 H4]. constructor; cbn [och_map och_last och_delivered]; try done.
  intros j q Hq. apply lookup_delete_Some in Hq as [_ Hq]. by apply H3.
Qed.

(** The scan delivers everything it can. *)
Lemma scan_send_spec fuel st seen :
  Inv0 st seen -> (size (och_map st) < fuel)%nat ->
  let '(ok, st') := scan_send fuel st (N.of_nat (length (och_delivered st))) in
  Inv0 st' seen /\ och_sink_open st' = och_sink_open st /\
  (exists l, och_delivered st' = och_delivered st ++ l) /\
  (och_sink_open st = true -> ok = true /\
     och_map st' !! N.of_nat (length (och_delivered st')) = None /\
     (forall i, is_Some (och_map st !! i) ->
        i < N.of_nat (length (och_delivered st')) \/ is_Some (och_map st' !! i))).
Proof.
  revert st; induction fuel as [|fuel IH]; intros st HI Hf; [lia|].
  cbn [scan_send]. destruct (och_map st !! N.of_nat (length (och_delivered st))) as [p|] eqn:E.
  2:{ split; [done|]. split; [done|]. split; [exists []; by rewrite app_nil_r|].
      intros _. split; [done|]. split; [done|]. intros i Hi. by right. }
  set (st1 := mk_och (delete (N.of_nat (length (och_delivered st))) (och_map st)) (och_last st) (och_sink_open st) (och_delivered st)).
  assert (Inv0 st1 seen) as HI1 by (by apply inv0_delete).
  destruct (i_map _ _ HI _ _ E) as [Hs _].
  unfold send_unconditional. cbn [och_sink_open st1].
  destruct (och_sink_open st) eqn:Eo.
  2:{ split; [done|]. split; [done|]. split; [exists []; by rewrite app_nil_r|]. done. }
  set (st2 := mk_och (och_map st1) (Some (N.of_nat (length (och_delivered st)))) true (och_delivered st1 ++ [p])).
  assert (Inv0 st2 seen) as HI2.
  { apply (inv0_deliver st1 seen p HI1); [done|]. cbn. apply lookup_delete. }
  assert (length (och_delivered st2) = S (length (och_delivered st))) as Hl.
  { cbn. rewrite app_length. cbn. lia. }
  assert (wrapping_succ (N.of_nat (length (och_delivered st))) = N.of_nat (length (och_delivered st2))) as Hw.
  { rewrite wrapping_succ_small; [lia|]. by eapply i_rng. }
  rewrite Hw.
  assert (size (och_map st2) < fuel)%nat as Hf2.
  { cbn. rewrite map_size_delete, E. cbn.
    assert (size (och_map st) <> 0%nat); [|lia].
    apply map_size_non_empty_iff. intros Hem. rewrite Hem, lookup_empty in E. done. }
  specialize (IH st2 HI2 Hf2).
  destruct (scan_send fuel st2 (N.of_nat (length (och_delivered st2)))) as [ok st'].
  destruct IH as (Ha & Hb & (l & Hc) & Hd).
  split; [done|]. split; [rewrite Hb; done|].
  split. { exists (p :: l). rewrite Hc. cbn. rewrite <- app_assoc. done. }
  intros _. destruct (Hd eq_refl) as (Hd1 & Hd2 & Hd3). split; [done|]. split; [done|].
  intros i Hi. destruct (decide (i = N.of_nat (length (och_delivered st)))) as [->|Hn].
  - left. rewrite Hc, !app_length. cbn. rewrite app_length. cbn. lia.
  - apply Hd3. cbn. rewrite lookup_delete_ne by done. done.
Qed.

Lemma inv0_weaken st (seen seen' : N -> T -> Prop) :
  Inv0 st seen -> (forall i p, seen i p -> seen' i p) -> (forall i p, seen' i p -> i < 2 ^ 64 - 1) ->
  Inv0 st seen'.
Proof.
  intros [H1 H2 H3 H4] Hm Hr. constructor; try done.
  - intros i p Hp. by apply Hm, H2.
  - intros i p Hp. destruct (H3 _ _ Hp). split; [by apply Hm|done].
Qed.

Definition add_seen (seen : N -> T -> Prop) id packet : N -> T -> Prop :=
  fun i p => seen i p \/ (i = id /\ p = packet).

Lemma recv_inv0 st seen id packet :
  Inv0 st seen -> id < 2 ^ 64 - 1 ->
  och_map st !! N.of_nat (length (och_delivered st)) = None \/ och_sink_open st = false ->
  let '(ok, st') := on_packet_received st id packet in
  Inv0 st' (add_seen seen id packet) /\ och_sink_open st' = och_sink_open st /\
  (exists l, och_delivered st' = och_delivered st ++ l) /\
  (Inv st seen -> och_sink_open st = true -> ok = true /\ Inv st' (add_seen seen id packet)).
Proof.
  intros HI Hid Hgap.
  assert (Inv0 st (add_seen seen id packet)) as HI'.
  { eapply inv0_weaken; [done| |].
    - intros; by left.
    - intros i p [H|[-> ->]]; [by eapply i_rng|done]. }
  unfold on_packet_received. rewrite (next_expected _ _ HI).
  case_bool_decide as H1.
  - (* next in order *)
    unfold send_then_scan, send_unconditional.
    destruct (och_sink_open st) eqn:Eo.
    2:{ split; [done|]. split; [done|]. split; [exists []; by rewrite app_nil_r|]. done. }
    destruct Hgap as [Hgap|Hgap]; [|congruence].
    set (st1 := mk_och (och_map st) (Some id) true (och_delivered st ++ [packet])).
    assert (Inv0 st1 (add_seen seen id packet)) as HI1.
    { unfold st1. rewrite <- H1. apply inv0_deliver; [by rewrite H1| |done]. right. done. }
    assert (length (och_delivered st1) = S (length (och_delivered st))) as Hl.
    { cbn. rewrite app_length. cbn. lia. }
    assert (wrapping_succ id = N.of_nat (length (och_delivered st1))) as Hw.
    { rewrite wrapping_succ_small; [lia|done]. }
    case_bool_decide as H2.
    + split; [done|]. split; [done|]. split; [by exists [packet]|].
      intros HIn _. split; [done|]. constructor; [done| |].
      * intros i p [H|[-> ->]].
        -- destruct (i_all _ _ HIn _ _ H) as [Ha|Ha]; [left; rewrite Hl; lia|by right].
        -- left. rewrite Hl. lia.
      * cbn in *. rewrite H2. apply lookup_empty.
    + rewrite Hw.
      pose proof (scan_send_spec (S (size (och_map st1))) st1 _ HI1 ltac:(lia)) as Hsc.
      destruct (scan_send (S (size (och_map st1))) st1 (N.of_nat (length (och_delivered st1)))) as [ok st'].
      destruct Hsc as (Ha & Hb & (l & Hc) & Hd).
      split; [done|]. split; [done|]. split.
      { exists (packet :: l). rewrite Hc. cbn. by rewrite <- app_assoc. }
      intros HIn _. destruct (Hd eq_refl) as (Hd1 & Hd2 & Hd3). split; [done|].
      constructor; [done| |done].
      intros i p [H|[-> ->]].
      * destruct (i_all _ _ HIn _ _ H) as [Hx|Hx].
        -- left. rewrite Hc, app_length, Hl. lia.
        -- by apply Hd3.
      * left. rewrite Hc, app_length, Hl. lia.
  - destruct (is_already_delivered (och_last st) id) eqn:E.
    + assert (id < N.of_nat (length (och_delivered st))) as Hlt.
      { unfold is_already_delivered in E. rewrite (i_last _ _ HI) in E.
        destruct (length (och_delivered st)); [done|]. apply bool_decide_eq_true_1 in E. lia. }
      split; [done|]. split; [done|]. split; [exists []; by rewrite app_nil_r|].
      intros HIn _. split; [done|]. constructor; [done| |by apply HIn].
      intros i p [H|[-> ->]]; [by eapply i_all|by left].
    + assert (N.of_nat (length (och_delivered st)) < id) as Hlt.
      { unfold is_already_delivered in E. rewrite (i_last _ _ HI) in E.
        destruct (length (och_delivered st)); [lia|]. apply bool_decide_eq_false_1 in E. lia. }
      split.
      { destruct HI' as [G1 G2 G3 G4]. constructor; cbn; try done.
        intros i p Hp. destruct (decide (i = id)) as [->|Hn].
        - rewrite lookup_insert in Hp. injection Hp as <-. split; [by right|lia].
        - rewrite lookup_insert_ne in Hp by done. by apply G3. }
      split; [done|]. split; [exists []; by rewrite app_nil_r|].
      intros HIn _. split; [done|]. constructor; cbn.
      * destruct HI' as [G1 G2 G3 G4]. constructor; cbn; try done.
        intros i p Hp. destruct (decide (i = id)) as [->|Hn].
        -- rewrite lookup_insert in Hp. injection Hp as <-. split; [by right|lia].
        -- rewrite lookup_insert_ne in Hp by done. by apply G3.
      * intros i p [H|[-> ->]].
        -- destruct (i_all _ _ HIn _ _ H) as [Hx|Hx]; [by left|right].
           destruct (decide (i = id)) as [->|Hn]; [by rewrite lookup_insert|by rewrite lookup_insert_ne].
        -- right. by rewrite lookup_insert.
      * rewrite lookup_insert_ne by lia. apply HIn.
Qed.

Definition seen_of (ops : list (op T)) : N -> T -> Prop := fun i p => Arrive i p ∈ ops.

Lemma run_snoc ops o : run (ops ++ [o]) = step (run ops) o.
Proof. unfold run. rewrite fold_left_app. done. Qed.

Lemma ids_in_range_app ops1 ops2 : ids_in_range (ops1 ++ ops2) -> ids_in_range ops1 /\ ids_in_range ops2.
Proof. intros H. split; intros i p Hp; eapply H; apply elem_of_app; eauto. Qed.

Lemma run_inv ops :
  ids_in_range ops ->
  Inv0 (run ops) (seen_of ops) /\
  (och_sink_open (run ops) = false \/ Inv (run ops) (seen_of ops)) /\
  (ConsumerGone ∉ ops -> och_sink_open (run ops) = true).
Proof.
  induction ops as [|o ops IH] using rev_ind; intros Hr.
  - assert (Inv0 (och_new : och T) (seen_of [])) as H0.
    { constructor; cbn; try done.
      all: intros i p H; by apply elem_of_nil in H. }
    split; [exact H0|]. split; [|done]. right. constructor; [exact H0| |done].
    intros i p H. by apply elem_of_nil in H.
  - apply ids_in_range_app in Hr as [Hr1 Hr2]. specialize (IH Hr1) as (I0 & I1 & I2).
    rewrite run_snoc. destruct o as [id packet|]; cbn [step].
    + assert (id < 2 ^ 64 - 1) as Hid by (eapply Hr2, elem_of_list_singleton; done).
      pose proof (recv_inv0 _ _ id packet I0 Hid) as Hrec.
      assert (och_map (run ops) !! N.of_nat (length (och_delivered (run ops))) = None \/ och_sink_open (run ops) = false) as Hg.
      { destruct I1 as [I1|I1]; [by right|left; apply I1]. }
      specialize (Hrec Hg). destruct (on_packet_received (run ops) id packet) as [ok st'] eqn:E.
      destruct Hrec as (Ha & Hb & Hc & Hd). cbn [snd].
      assert (forall i p, add_seen (seen_of ops) id packet i p <-> seen_of (ops ++ [Arrive id packet]) i p) as Heq.
      { intros i p. unfold add_seen, seen_of. rewrite elem_of_app, elem_of_list_singleton.
        split; intros [H|H]; [by left|right|by left|right]; [destruct H; congruence|injection H; auto]. }
      assert (Inv0 st' (seen_of (ops ++ [Arrive id packet]))) as H0.
      { eapply inv0_weaken; [exact Ha| |].
        - intros i p. apply Heq.
        - intros i p Hs. apply Heq in Hs. by eapply i_rng. }
      split; [done|]. split.
      * destruct I1 as [I1|I1]; [left; by rewrite Hb|].
        destruct (och_sink_open (run ops)) eqn:Eo; [|left; by rewrite Hb].
        right. destruct (Hd I1 eq_refl) as [_ [Hi Hj Hk]]. constructor; [done| |done].
        intros i p Hs. apply Heq in Hs. by eapply Hj.
      * intros Hn. rewrite Hb. apply I2. set_solver.
    + cbn. split.
      { destruct I0 as [G1 G2 G3 G4]. constructor; cbn; try done.
        - intros i p Hp. unfold seen_of. apply elem_of_app. left. by apply G2.
        - intros i p Hp. destruct (G3 _ _ Hp). split; [|done]. unfold seen_of. apply elem_of_app. by left.
        - intros i p Hp. unfold seen_of in Hp. apply elem_of_app in Hp as [Hp|Hp]; [by eapply G4|].
          apply elem_of_list_singleton in Hp. done. }
      split; [by left|]. intros Hn. exfalso. apply Hn. apply elem_of_app. right. by apply elem_of_list_singleton.
Qed.

(** Safety with any behaviour. *)
Lemma delivered_in_order ops :
  ids_in_range ops ->
  forall k p, och_delivered (run ops) !! k = Some p -> arrived ops (N.of_nat k) p.
Proof. intros Hr k p Hp. destruct (run_inv ops Hr) as [I0 _]. by apply (i_deliv _ _ I0). Qed.

Lemma delivered_maximal ops :
  ids_in_range ops -> ConsumerGone ∉ ops ->
  forall p, ~ arrived ops (N.of_nat (length (och_delivered (run ops)))) p.
Proof.
  intros Hr Hn p Hp. destruct (run_inv ops Hr) as (I0 & [I1|I1] & I2).
  - rewrite I2 in I1; done.
  - destruct (i_all _ _ I1 _ _ Hp) as [H|[q H]]; [lia|]. rewrite (i_gap _ _ I1) in H. done.
Qed.

Lemma copies_prefix msgs ops :
  ids_in_range ops -> copies_of msgs ops ->
  exists k, och_delivered (run ops) = take k msgs.
Proof.
  intros Hr Hc. exists (length (och_delivered (run ops))).
  apply list_eq. intros i. destruct (och_delivered (run ops) !! i) as [p|] eqn:E.
  - pose proof (delivered_in_order ops Hr i p E) as Ha. specialize (Hc _ _ Ha).
    rewrite Nat2N.id in Hc. rewrite lookup_take; [done|]. by apply lookup_lt_Some in E.
  - symmetry. apply lookup_take_ge. by apply lookup_ge_None in E.
Qed.

Lemma copies_exact msgs ops k :
  ids_in_range ops -> copies_of msgs ops -> ConsumerGone ∉ ops ->
  (forall i, i < N.of_nat k -> exists p, arrived ops i p) ->
  (forall p, ~ arrived ops (N.of_nat k) p) ->
  och_delivered (run ops) = take k msgs /\ length (och_delivered (run ops)) = k.
Proof.
  intros Hr Hc Hn Hk Hnk.
  assert (length (och_delivered (run ops)) = k) as Hl.
  { pose proof (delivered_maximal ops Hr Hn) as Hm.
    destruct (decide (length (och_delivered (run ops)) < k)%nat) as [H|H].
    - destruct (Hk (N.of_nat (length (och_delivered (run ops)))) ltac:(lia)) as [p Hp]. by apply Hm in Hp.
    - destruct (decide (k < length (och_delivered (run ops)))%nat) as [H'|H']; [|lia].
      destruct (lookup_lt_is_Some_2 _ _ H') as [p Hp]. apply delivered_in_order in Hp; [|done].
      by apply Hnk in Hp. }
  split; [|done].
  destruct (copies_prefix msgs ops Hr Hc) as [j Hj].
  rewrite Hj in Hl |- *. rewrite take_length in Hl.
  destruct (decide (j <= length msgs)%nat); [f_equal; lia|].
  rewrite (take_ge msgs j) by lia. rewrite (take_ge msgs k); [done|lia].
Qed.

Lemma delivered_monotone ops o :
  ids_in_range (ops ++ [o]) ->
  exists l, och_delivered (run (ops ++ [o])) = och_delivered (run ops) ++ l.
Proof.
  intros Hr. apply ids_in_range_app in Hr as [Hr1 Hr2].
  destruct (run_inv ops Hr1) as (I0 & I1 & I2). rewrite run_snoc.
  destruct o as [id p|]; cbn [step]; [|exists []; cbn; by rewrite app_nil_r].
  pose proof (recv_inv0 _ _ id p I0 ltac:(eapply Hr2, elem_of_list_singleton; done)) as Hrec.
  assert (och_map (run ops) !! N.of_nat (length (och_delivered (run ops))) = None \/ och_sink_open (run ops) = false) as Hg.
  { destruct I1 as [I1|I1]; [by right|left; apply I1]. }
  specialize (Hrec Hg). destruct (on_packet_received (run ops) id p) as [ok st']. cbn. tauto.
Qed.

(** The buffer only holds packets that arrived, are not delivered yet. *)
Lemma buffer_bounded ops i p :
  ids_in_range ops -> och_map (run ops) !! i = Some p ->
  arrived ops i p /\ N.of_nat (length (och_delivered (run ops))) <= i.
Proof. intros Hr Hp. destruct (run_inv ops Hr) as [I0 _]. by apply (i_map _ _ I0). Qed.
End proofs.
