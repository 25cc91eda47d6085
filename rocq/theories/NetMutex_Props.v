(** C40, C41, C42, C66, C67: the network mutex. *)
From stdpp Require Import prelude.
From Verif Require Import NetMutex_Model NetMutex_Spec NetMutex_Proofs.
Local Open Scope Z_scope.

(** C40.  Whatever the lock requests (any number, with any times), guard drops and
    deliveries, as long as no pending lock() is cancelled and neither mutex is dropped,
    the two ends never hold guards together. *)
Theorem C40_mutual_exclusion v es :
  Forall ordinary es → ¬ clash (mrun (mworld_init v) es).1.
Proof.
  intros Hf. destruct (mrun (mworld_init v) es) as [w os] eqn:E. eapply minv_clash. by eapply minv_run; [apply minv_init| |].
Qed.

(** C42.  A guard handed out shows the value last written by either end, and keeps
    showing it until it is dropped. *)
Theorem C42_guard_sees_last_write v es e s x :
  Forall ordinary es → ordinary e →
  (mstep (mrun (mworld_init v) es).1 e).2 = Some (s, x) → x = last_written (mworld_init v) es v.
Proof.
  intros Hf He. destruct (mrun (mworld_init v) es) as [w os] eqn:E. cbn [fst]. intros H.
  destruct (mstep w e) as [w' o] eqn:Es. cbn [snd] in H. subst o.
  assert (Hi : minv (last_written (mworld_init v) es v) (view_of w)) by (by eapply minv_run; [apply minv_init| |]).
  destruct (minv_step _ _ _ _ _ Hi He Es) as [_ Hv]. by apply (Hv s).
Qed.
Theorem C42_held_value_is_last_write v es s :
  Forall ordinary es → holds (mrun (mworld_init v) es).1 s →
  m_value (mw_node (mrun (mworld_init v) es).1 s) = last_written (mworld_init v) es v.
Proof.
  intros Hf. destruct (mrun (mworld_init v) es) as [w os] eqn:E. intros H. eapply minv_held; [|done]. by eapply minv_run; [apply minv_init| |].
Qed.

(** C41 is false.  Both ends ask; the initiator wins, writes 7 and lets go; the other end
    gets the lock, and meanwhile the initiator is idle.  When the other end drops its
    guard, the idle handler throws the Released packet away, and the drop code waits for
    its confirmation for ever, holding the local lock. *)
Definition ask (s : bool) (t : Z) : list mevent := [Signal s; Enqueue s; Acquire s t].
Definition race : list mevent :=
  ask true 1 ++ ask false 2 ++ [Deliver true; Deliver false; DropGuard true 7; Deliver false; Deliver false;
    Deliver true; Deliver true; BgTry true; DropGuard false 9; Deliver true].
Lemma race_ordinary : Forall ordinary (race ++ ask true 3).
Proof. repeat constructor. Qed.
Lemma race_guards : (mrun (mworld_init 5) race).2 = [(true, 5%N); (false, 7%N)].
Proof. vm_compute. reflexivity. Qed.
Lemma race_buried : buried (mrun (mworld_init 5) (race ++ ask true 3)).1.
Proof. exists false, false. vm_compute. split; [reflexivity|]. split; [reflexivity|]. right. exists 3. split; [reflexivity|]. by left. Qed.
Lemma race_waiting : waiting (mrun (mworld_init 5) (race ++ ask true 3)).1 true.
Proof. right. left. exists 3. by vm_compute. Qed.
Lemma race_free s : ¬ holds (mrun (mworld_init 5) (race ++ ask true 3)).1 s.
Proof. unfold holds. destruct s; vm_compute; discriminate. Qed.

Theorem C41_refuted :
  ∃ v es s, Forall ordinary es ∧ waiting (mrun (mworld_init v) es).1 s ∧ (∀ t, ¬ holds (mrun (mworld_init v) es).1 t) ∧
    ∀ es', Forall ordinary es' → starved (mrun (mworld_init v) es).1 es'.
Proof.
  exists 5%N, (race ++ ask true 3), true. split; [apply race_ordinary|]. split; [apply race_waiting|]. split; [apply race_free|].
  intros es' Hf. apply buried_run; [apply race_buried|exact Hf].
Qed.

(** C41 fails even for a lone request: the idle handler takes the wake-up signal, lets go
    of the local lock and takes it again before the request is in the queue; until
    somebody asks once more, nothing happens. *)
Definition overtaken : list mevent := [BgTry true; Signal true; BgWake true; BgTry true; Enqueue true].
Lemma overtaken_overslept : overslept (mrun (mworld_init 5) overtaken).1.
Proof. vm_compute. repeat split; try reflexivity. by left. Qed.
Lemma overtaken_waiting : waiting (mrun (mworld_init 5) overtaken).1 true.
Proof. left. vm_compute. lia. Qed.
Theorem C41_lost_wakeup_refuted :
  ∃ v es s, Forall ordinary es ∧ waiting (mrun (mworld_init v) es).1 s ∧ (∀ t, ¬ holds (mrun (mworld_init v) es).1 t) ∧
    ∀ es', Forall quiet es' → starved (mrun (mworld_init v) es).1 es'.
Proof.
  exists 5%N, overtaken, true. split; [repeat constructor|]. split; [apply overtaken_waiting|]. split.
  { unfold holds. intros []; vm_compute; discriminate. }
  intros es' Hf. apply overslept_run; [apply overtaken_overslept|exact Hf].
Qed.
(** What holds of C41: a request that has its turn at its own end, while the other end is
    idle and nothing is under way, is granted after two deliveries. *)
Theorem C41_lone_request_partial w s t k :
  m_mode (mw_node w s) = Free → m_queued (mw_node w s) = S k → m_mode (mw_node w (negb s)) = Bg →
  (∀ x, mw_out w x = []) →
  (mrun w [Acquire s t; Deliver (negb s); Deliver s]).2 = [(s, m_value (mw_node w (negb s)))] ∧
  holds (mrun w [Acquire s t; Deliver (negb s); Deliver s]).1 s.
Proof.
  intros Hm Hq Hb Ho. destruct w as [nd o]. cbn in *.
  assert (Hs : o s = []) by done. assert (Hs' : o (negb s) = []) by done.
  destruct s; cbn in *; rewrite Hm, Hq; cbn; rewrite Hs; cbn; unfold recv; cbn; rewrite Hb; cbn; rewrite Hs'; cbn; done.
Qed.
(** And the lock changes hands: when one end drops its guard with the value [v] while its background handler sleeps and the
    other end has a request, that request is granted with the value [v]. *)
Theorem C41_hand_over_partial w s v t k :
  m_mode (mw_node w s) = Guard → m_bg (mw_node w s) = BgAsleep → m_sig (mw_node w s) = O → m_queued (mw_node w s) = O →
  m_mode (mw_node w (negb s)) = BgYield → m_queued (mw_node w (negb s)) = S k → (∀ x, mw_out w x = []) →
  let es := [DropGuard s v; Deliver (negb s); Deliver s; Deliver s; BgWake s; BgTry s; Acquire (negb s) t; Deliver s; Deliver (negb s)] in
  (mrun w es).2 = [(negb s, v)] ∧ holds (mrun w es).1 (negb s) ∧ ¬ holds (mrun w es).1 s.
Proof.
  intros Hm Hb Hg Hq Ho Hk Hout es. destruct w as [nd o]. cbn [mw_node mw_out] in *.
  assert (H1 : o true = []) by done. assert (H2 : o false = []) by done.
  destruct s; cbn [negb] in *;
    (destruct (nd true) as [m1 v1 b1 s1 q1 k1] eqn:E1; destruct (nd false) as [m2 v2 b2 s2 q2 k2] eqn:E2);
    cbn in Hm, Hb, Hg, Hq, Ho, Hk; subst; unfold es, holds.
  all: cbn; rewrite ?E1, ?E2; cbn; rewrite ?H1, ?H2; cbn; rewrite ?E1, ?E2; cbn; unfold recv; cbn; rewrite ?H1, ?H2, ?E1, ?E2; cbn.
  all: done.
Qed.
Example C41_hand_over_example :
  let w := (mrun (mworld_init 5) ([Signal true; Enqueue true; BgTry false; BgTry true; Acquire true 1; Deliver false; Deliver true;
    BgWake true; BgTry true; Deliver false; Deliver false; Signal false; Enqueue false])).1 in
  m_mode (mw_node w true) = Guard ∧ m_bg (mw_node w true) = BgAsleep ∧ m_sig (mw_node w true) = O ∧
  m_mode (mw_node w false) = BgYield ∧ m_queued (mw_node w false) = 1%nat ∧ mw_out w true = [] ∧ mw_out w false = [] ∧
  (mrun w [DropGuard true 9; Deliver false; Deliver true; Deliver true; BgWake true; BgTry true; Acquire false 2; Deliver true; Deliver false]).2
    = [(false, 9%N)].
Proof. vm_compute. repeat split; reflexivity. Qed.



(** C66: dropping the future of lock() (for instance through a timeout or select) breaks
    exclusion.  The other end's handler answers the first request; the second one, sent
    while that answer is under way, makes it give up; its own queued request then beats the
    third one, while the requester takes the old answer. *)
Definition abandon : list mevent :=
  [BgTry true] ++ ask false 1 ++ [Deliver true; Signal true; Enqueue true; Cancel false] ++ ask false 2 ++
  [Deliver true; Cancel false; Acquire true 5] ++ ask false 6 ++ [Deliver true; Deliver false].
Lemma abandon_clash : clash (mrun (mworld_init 5) abandon).1.
Proof. split; vm_compute; reflexivity. Qed.
Theorem C66_refuted :
  ∃ v es, Forall (λ e, match e with DropMutex _ => False | _ => True end) es ∧ clash (mrun (mworld_init v) es).1.
Proof. exists 5%N, abandon. split; [repeat constructor|apply abandon_clash]. Qed.

(** C67: a mutex may be dropped while a guard taken from it is held; it says Halt, and
    an acquirer waiting at the other end takes that for the lock. *)
Definition abolish : list mevent := ask true 1 ++ ask false 2 ++ [Deliver true; Deliver false; DropMutex true; Deliver false; Deliver false].
Lemma abolish_clash : clash (mrun (mworld_init 5) abolish).1.
Proof. split; vm_compute; reflexivity. Qed.
Theorem C67_refuted :
  ∃ v es, Forall (λ e, match e with Cancel _ => False | _ => True end) es ∧ clash (mrun (mworld_init v) es).1.
Proof. exists 5%N, abolish. split; [repeat constructor|apply abolish_clash]. Qed.

(** Examples: two requests with the same time, the initiator is served first, then the
    other end; then the initiator asks again and sees what was written. *)
Definition duel : list mevent :=
  ask true 4 ++ ask false 4 ++ [Deliver false; Deliver true; DropGuard true 7; Deliver false; Deliver false; Deliver true; Deliver true] ++
  ask true 6 ++ [DropGuard false 9; Deliver false; Deliver true].
Example C40_example : Forall ordinary duel ∧ (mrun (mworld_init 5) duel).2 = [(true, 5%N); (false, 7%N); (true, 9%N)].
Proof. split; [repeat constructor|vm_compute; reflexivity]. Qed.
Example C42_example : last_written (mworld_init 5) duel 5 = 9%N ∧ holds (mrun (mworld_init 5) duel).1 true.
Proof. split; vm_compute; reflexivity. Qed.
Example C41_example : (mrun (mworld_init 5) ([BgTry false] ++ ask true 4 ++ [Deliver false; Deliver true])).2 = [(true, 5%N)].
Proof. vm_compute. reflexivity. Qed.
Example C66_example : (mrun (mworld_init 5) abandon).2 = [(true, 5%N); (false, 5%N)].
Proof. vm_compute. reflexivity. Qed.
Example C67_example : (mrun (mworld_init 5) abolish).2 = [(true, 5%N); (false, 5%N)].
Proof. vm_compute. reflexivity. Qed.

Print Assumptions C40_mutual_exclusion.
Print Assumptions C42_guard_sees_last_write.
Print Assumptions C42_held_value_is_last_write.
Print Assumptions C41_refuted.
Print Assumptions C41_lost_wakeup_refuted.
Print Assumptions C41_lone_request_partial.
Print Assumptions C66_refuted.
Print Assumptions C67_refuted.
Print Assumptions C41_hand_over_partial.
