(** Subscriptions of a multiplexed connection: C100–C104. *)
From Coq Require Import ZifyBool ZifyNat ZifyN.
From stdpp Require Import prelude gmap.
From Verif Require Import Multiplex_Model Multiplex_Spec Multiplex_Proofs.
Local Open Scope N_scope.

(** ** C100: a subscription delivers what was sent on its counterpart, in order and to it alone *)
Theorem C100_in_order es w s id : no_cancel es → run init es = Some w →
  on id (e_got (get s w)) `prefix_of` on id (e_sent (get (negb s) w)).
Proof.
  intros Hn E. pose proof (WI_run _ _ _ WI_init Hn E) as H. destruct s; cbn [get negb]; [apply (f_got _ _ _ (wi_fr _ H))|apply (f_got _ _ _ (wi_fi _ H))].
Qed.
(** while the user keeps the subscription nothing is lost: once nothing can arrive and nothing is left to read, all has been received *)
Theorem C100_complete es w s id : no_cancel es → run init es = Some w →
  id ∈ e_ops (get s w) → At s (Drop id) ∉ es → step w (Deliver s) = None → step w (At s (Recv id)) = None →
  on id (e_got (get s w)) = on id (e_sent (get (negb s) w)).
Proof.
  intros Hn E Hid Hd Hdel Hrecv. pose proof (WI_run _ _ _ WI_init Hn E) as H.
  rewrite <- (dropped_reached es w s id Hn E) in Hd.
  assert (Hal : ∃ b, e_subs (get s w) !! id = Some (mk_sub (Some []) b)).
  { destruct (e_subs (get s w) !! id) as [[[l|] b]|] eqn:Es.
    - exists b. destruct l as [|m l]; [done|]. exfalso.
      assert (Ea : act_step s (get s w) (Recv id) ≠ None) by (cbn [act_step]; rewrite Es, bool_decide_true by done; done).
      destruct s; cbn [step get] in Hrecv, Ea; by destruct (act_step _ _ _) as [[[? ?] ?]|].
    - destruct Hd. split; [done|by eapply alive_not_none].
    - destruct Hd. split; [done|by apply missing_not_alive]. }
  destruct Hal as [b Hb].
  assert (Hv : view (get s w) id = Some (on id (e_got (get s w)))) by (unfold view; rewrite Hb; by rewrite app_nil_r).
  destruct s; cbn [get negb] in *.
  - rewrite <- (f_view _ _ _ (wi_fr _ H) _ _ Hv), (quiet_queue_r _ H Hdel). by rewrite app_nil_r.
  - rewrite <- (f_view _ _ _ (wi_fi _ H) _ _ Hv), (quiet_queue_i _ H Hdel). by rewrite app_nil_r.
Qed.
(** messages 7, 9 on subscription 1 and 8 on subscription 2, sent before the other side has opened any *)
Example C100_example :
  let es := [At true Open; At true Open; At true (Send 1 7); At true (Send 2 8); At true (Send 1 9);
             Deliver false; Deliver false; Deliver false; At false Open; At false (Recv 1); At false (Recv 1)] in
  match run init es with
  | Some w => bool_decide (on 1 (e_got (w_i w)) = [7; 9] ∧ on 2 (e_got (w_i w)) = [] ∧ on 2 (e_sent (w_r w)) = [8])
  | None => false
  end = true.
Proof. by vm_compute. Qed.

Definition none {A} (o : option A) : bool := match o with None => true | Some _ => false end.
Lemma none_spec {A} (o : option A) : none o = true → o = None.
Proof. by destruct o. Qed.
Lemma witness es (P : world → bool) : match run init es with Some w => P w | None => false end = true → ∃ w, run init es = Some w ∧ P w = true.
Proof. destruct (run init es) as [w|]; [|done]. by exists w. Qed.

(** ** C101: a user who gives up an opening and tries again loses nothing *)
(** 32 subscriptions at both ends *)
Definition all_reserved : list event := concat (replicate 32 [At true Open; At false Open]).
(** The receiver gives up the opening of subscription 33 and opens another one, 34. The initiator, which is behind, opens
    33 and says so; the receiver takes that for the answer and sends message 7 on 34, which the initiator has not got yet. *)
Definition retried : list event :=
  all_reserved ++
  [At true Open; At true Setup; At true Cancel; At true Open; At true Setup;
   Deliver false; At false Open; At false Opened; At false Setup; Deliver true; At true Opened;
   At true (Send 34 7); Deliver false; Deliver false;
   At false Open; At false Opened; At false Setup].
Theorem C101_refuted : ∃ es w, run init es = Some w ∧ w_ok w = true ∧
  (* both users have subscription 34, neither has dropped it, nothing is on its way *)
  34 ∈ e_ops (w_r w) ∧ 34 ∈ e_ops (w_i w) ∧ (∀ s, At s (Drop 34) ∉ es) ∧ to_i w = [] ∧
  (* the message is lost *)
  on 34 (e_sent (w_r w)) = [7] ∧ on 34 (e_got (w_i w)) = [] ∧ step w (At false (Recv 34)) = None.
Proof.
  exists retried.
  destruct (witness retried (λ w, w_ok w && bool_decide (34 ∈ e_ops (w_r w) ∧ 34 ∈ e_ops (w_i w) ∧ to_i w = [] ∧
    on 34 (e_sent (w_r w)) = [7] ∧ on 34 (e_got (w_i w)) = []) && none (step w (At false (Recv 34))))) as (w & E & Hw); [by vm_compute|].
  exists w. apply andb_true_iff in Hw as [Hw Hn%none_spec]. apply andb_true_iff in Hw as [Hok Hw]. apply bool_decide_eq_true_1 in Hw as (H1 & H2 & H3 & H4 & H5).
  split_and!; try assumption.
  intros s H. assert (Hall : Forall (λ ev, match ev with At _ (Drop _) => False | _ => True end) retried) by (vm_compute; repeat constructor).
  rewrite Forall_forall in Hall. exact (Hall _ H).
Qed.

(** ** C102: the n-th subscription of one node is paired with the n-th of the other *)
Theorem C102_paired es w : no_cancel es → run init es = Some w →
  w_ok w = true ∧ ∀ s n id, e_ops (get s w) !! n = Some id → id = N.of_nat n + 1.
Proof.
  intros Hn E. pose proof (WI_run _ _ _ WI_init Hn E) as H. split; [apply H|]. intros s n id Hid.
  assert (Ho : e_ops (get s w) = ids (length (e_ops (get s w)))) by (destruct s; cbn [get]; [apply (li_ops _ _ (wi_r _ H))|apply (li_ops _ _ (wi_i _ H))]).
  rewrite Ho in Hid. unfold ids in Hid. rewrite list_lookup_fmap in Hid. destruct (seq _ _ !! n) as [k|] eqn:Ek; [|done]. injection Hid as <-.
  apply lookup_seq in Ek as [-> _]. lia.
Qed.
Example C102_example :
  let es := all_reserved ++ [At true Open; At true Setup; At false Open; Deliver false; At false Opened; At false Setup; Deliver true; At true Opened] in
  match run init es with
  | Some w => bool_decide (e_ops (w_r w) !! 32%nat = Some 33 ∧ e_ops (w_i w) !! 32%nat = Some 33)
  | None => false
  end = true.
Proof. by vm_compute. Qed.

(** ** C103: an opening that both users have begun is completed *)
(** The receiver drops subscription 1, which the other user keeps: the close sequence waits with the mutex that the opening of subscription 33 needs. *)
Definition one_kept : list event :=
  all_reserved ++ [At true (Drop 1); At true (BeginClose 1); Deliver false; At true Open; At false Open].
Lemma quiet_check w :
  step w (Deliver true) = None → step w (Deliver false) = None →
  (∀ s, act_step s (get s w) Setup = None ∧ act_step s (get s w) Opened = None ∧ act_step s (get s w) Close = None ∧ e_spawn (get s w) = []) → quiet w.
Proof.
  intros H1 H2 H ev Hi. destruct ev as [s a|[|]]; [|done..]. specialize (H s) as (Ha & Hb & Hc & Hd).
  destruct a; try done; destruct s; cbn [step get] in *; rewrite ?Ha, ?Hb, ?Hc; try done; cbn [act_step]; by rewrite Hd.
Qed.
Definition idle (w : world) (s : bool) : bool :=
  none (step w (Deliver s)) && none (act_step s (get s w) Setup) && none (act_step s (get s w) Opened) && none (act_step s (get s w) Close) && bool_decide (e_spawn (get s w) = []).
Lemma idle_quiet w : idle w true = true → idle w false = true → quiet w.
Proof.
  unfold idle. intros H1 H2. rewrite !andb_true_iff in H1, H2. destruct H1 as [[[[A1 A2] A3] A4] A5], H2 as [[[[B1 B2] B3] B4] B5].
  apply bool_decide_eq_true_1 in A5, B5. apply quiet_check; [by apply none_spec|by apply none_spec|].
  intros [|]; split_and!; try (by apply none_spec); done.
Qed.
Theorem C103_refuted : ∃ es w, no_cancel es ∧ run init es = Some w ∧ quiet w ∧
  opens true es = 33%nat ∧ opens false es = 33%nat ∧ ∀ s, length (e_ops (get s w)) = 32%nat.
Proof.
  exists one_kept.
  destruct (witness one_kept (λ w, idle w true && idle w false && bool_decide (length (e_ops (w_r w)) = 32%nat ∧ length (e_ops (w_i w)) = 32%nat))) as (w & E & Hw); [by vm_compute|].
  exists w. apply andb_true_iff in Hw as [Hw H3]. apply andb_true_iff in Hw as [H1 H2]. apply bool_decide_eq_true_1 in H3 as [H3 H4].
  split_and!; [|exact E|by apply idle_quiet|by vm_compute|by vm_compute|by intros []].
  intros s H. assert (Hall : Forall (λ ev, match ev with At _ Cancel => False | _ => True end) one_kept) by (vm_compute; repeat constructor).
  rewrite Forall_forall in Hall. exact (Hall _ H).
Qed.
(** It is completed after finitely many steps if every subscription that one user has dropped has been dropped by the other one too *)
Theorem C103_partial es w s : no_cancel es → run init es = Some w → quiet w → both_drop es →
  (opens true es `min` opens false es <= length (e_ops (get s w)))%nat.
Proof.
  intros Hn E Hq Hb. pose proof (WI_run _ _ _ WI_init Hn E) as H.
  assert (Hd : ∀ id, dropped (w_r w) id ↔ dropped (w_i w) id).
  { intros id. rewrite (dropped_reached es w true id Hn E), (dropped_reached es w false id Hn E). split; intros Hid; [apply (Hb true)|apply (Hb false)]; done. }
  pose proof (opens_run es init w s WI_init Hn E) as H1. pose proof (opens_run es init w (negb s) WI_init Hn E) as H2.
  assert (Hi : ∀ t, (length (e_ops (get t init)) + pending (get t init) = 0)%nat) by (by intros []). rewrite (Hi s) in H1. rewrite (Hi (negb s)) in H2.
  pose proof (quiet_opened w H Hq Hd s) as Ho. unfold nops in Ho.
  destruct (decide (pending (get s w) = 0%nat)); destruct s; cbn [negb get] in *; lia.
Qed.
Theorem C103_finite es w : no_cancel es → run init es = Some w →
  ∃ n, ∀ es' w', Forall internal es' → run w es' = Some w' → (length es' <= n)%nat.
Proof.
  intros Hn E. exists (work w). intros es' w' Hi E'. pose proof (work_run _ _ _ (WI_run _ _ _ WI_init Hn E) Hi E'). lia.
Qed.

Example C103_example :
  let es := all_reserved ++ [At false Open; At true Open; At true Setup; Deliver false; At false Opened; At false Setup; Deliver true; At true Opened] in
  match run init es with
  | Some w => idle w true && idle w false && bool_decide (opens true es = 33%nat ∧ opens false es = 33%nat ∧ length (e_ops (w_r w)) = 33%nat ∧ length (e_ops (w_i w)) = 33%nat)
  | None => false
  end = true.
Proof. by vm_compute. Qed.

(** ** C104: a subscription that both users have dropped leaves both tables *)
(** Both users drop subscription 2, but the receiver has dropped subscription 1 before, which the other user keeps. *)
Definition queued_up : list event :=
  [At true Open; At true Open; At false Open; At false Open; At true (Drop 1); At true (BeginClose 1); At true (Drop 2); At true (BeginClose 2);
   At false (Drop 2); At false (BeginClose 2); Deliver false; Deliver false; At false Close; Deliver true].
Theorem C104_refuted : ∃ es w, no_cancel es ∧ run init es = Some w ∧ quiet w ∧
  (∀ s, At s (Drop 2) ∈ es) ∧ is_Some (e_subs (w_r w) !! 2).
Proof.
  exists queued_up.
  destruct (witness queued_up (λ w, idle w true && idle w false && bool_decide (is_Some (e_subs (w_r w) !! 2)))) as (w & E & Hw); [by vm_compute|].
  exists w. apply andb_true_iff in Hw as [Hw H3]. apply andb_true_iff in Hw as [H1 H2]. apply bool_decide_eq_true_1 in H3.
  split_and!; [|exact E|by apply idle_quiet| |exact H3].
  - intros s H. assert (Hall : Forall (λ ev, match ev with At _ Cancel => False | _ => True end) queued_up) by (vm_compute; repeat constructor).
    rewrite Forall_forall in Hall. exact (Hall _ H).
  - intros [|]; apply elem_of_list_lookup; [exists 6%nat|exists 8%nat]; reflexivity.
Qed.
(** It does if that holds of all subscriptions that were dropped *)
Theorem C104_partial es w s id : no_cancel es → run init es = Some w → quiet w → both_drop es →
  At s (Drop id) ∈ es → e_subs (get s w) !! id = None.
Proof.
  intros Hn E Hq Hb Hin. pose proof (WI_run _ _ _ WI_init Hn E) as H.
  assert (Hd : ∀ id, dropped (w_r w) id ↔ dropped (w_i w) id).
  { intros i. rewrite (dropped_reached es w true i Hn E), (dropped_reached es w false i Hn E). split; intros Hi; [apply (Hb true)|apply (Hb false)]; done. }
  destruct (quiet_closed w H Hq Hd) as (_ & _ & _ & _ & Hr). apply Hr. by apply (dropped_reached es w s id Hn E).
Qed.
(** and a subscription leaves a table only if both users have dropped it *)
Theorem C104_only_dropped es w s id : no_cancel es → run init es = Some w → id ∈ e_ops (get s w) → e_subs (get s w) !! id = None →
  ∀ t, At t (Drop id) ∈ es.
Proof.
  intros Hn E Hid Hs t. pose proof (WI_run _ _ _ WI_init Hn E) as H. apply (dropped_reached es w t id Hn E).
  destruct (decide (t = s)) as [->|Hts]; [split; [done|by apply missing_not_alive]|].
  assert (Hsig : id ∈ e_sig (get s w)).
  { destruct s; cbn [get] in *; [eapply (li_gone _ _ (wi_r _ H)); [|done]|eapply (li_gone _ _ (wi_i _ H)); [|done]].
    - apply (LI_in_ops _ _ _ (wi_r _ H)) in Hid. pose proof (LI_latest _ _ (wi_r _ H)). lia.
    - apply (LI_in_ops _ _ _ (wi_i _ H)) in Hid. pose proof (LI_latest _ _ (wi_i _ H)). lia. }
  destruct s, t; try done; cbn [get] in *; [apply (f_gone _ _ _ (wi_fr _ H) id)|apply (f_gone _ _ _ (wi_fi _ H) id)]; by right.
Qed.
Example C104_example :
  let es := [At true Open; At false Open; At true (Drop 1); At true (BeginClose 1); Deliver false;
             At false (Drop 1); At false (BeginClose 1); At false Close; Deliver true; At true Close] in
  match run init es with
  | Some w => bool_decide (e_subs (w_r w) !! 1 = None ∧ e_subs (w_i w) !! 1 = None ∧ e_lock (w_r w) = [] ∧ to_r w = [])
  | None => false
  end = true.
Proof. by vm_compute. Qed.

Print Assumptions C100_in_order.
Print Assumptions C100_complete.
Print Assumptions C101_refuted.
Print Assumptions C102_paired.
Print Assumptions C103_refuted.
Print Assumptions C103_partial.
Print Assumptions C103_finite.
Print Assumptions C104_refuted.
Print Assumptions C104_partial.
Print Assumptions C104_only_dropped.
