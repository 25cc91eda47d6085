(** C31: requests between peers that the server keeps track of. *)
From Coq Require Import ZifyBool ZifyNat ZifyN.
From stdpp Require Import prelude gmap.
From Verif Require Import Postings_Model Postings_Spec Postings_Proofs.
Local Open Scope N_scope.

(** Whatever the calls, the server does not panic, and of the requests made with a ticket
    no more are consumed (answered, timed out or purged) than were made: none is consumed
    twice, nothing is consumed that was not made. *)
Theorem C31_at_most_once {S} `{EqDecision S} (es : list (levent S)) c t x :
  ∃ l os, lrun layer_init es = Some (l, os) ∧ (times_consumed c t x os ≤ times_made c t x es)%nat.
Proof.
  destruct (run_keyed es layer_init keyed_init) as (l & os & E & _). exists l, os. split; [done|].
  pose proof (run_count es layer_init l os c t x keyed_init E) as H. change (live c t x layer_init) with 0%nat in H. lia.
Qed.

(** What holds of the second half: if a ticket is used again only after the request made
    with it has been consumed, a request times out only at or after its own deadline.
    Missing: tickets used again while a request is pending, or after a reconnect. *)
Theorem C31_not_early_partial {S} (es : list (levent S)) l os k l' c t x :
  careful layer_init ∅ es → lrun layer_init es = Some (l, os) → lstep l (LExpire k) = Some (l', [TimedOut c t x]) →
  ∃ due, latest c t 0 es None = Some (due, x) ∧ due ≤ clock es.
Proof.
  intros Hc E Hs. destruct (run_tidy es layer_init l os ∅ (λ _ _, None) keyed_init tidy_init Hc E) as (K & N & op & T).
  cbn [lstep] in Hs. destruct (ly_expire l k) as [l1 o] eqn:Ee. destruct (expire_spec _ _ _ _ K Ee) as (_ & _ & _ & HO).
  destruct o as [y|]; [|done]. destruct HO as (e & p & He & Hd & _ & Hp & -> & _). injection Hs as _ Hc1 Ht1 Hx1.
  destruct (ti_due _ _ _ T _ _ He) as (x1 & H1). destruct (ti_sig _ _ _ T _ _ _ Hp) as (due & H2).
  change (ly_now (@layer_init S)) with 0 in *. rewrite Hc1, Ht1 in H1, H2. exists due. rewrite <- Hx1. split; [done|].
  assert (due = de_due e) as -> by congruence. lia.
Qed.

(** The claim is false for a ticket used again: the entry of the first request in the
    delay queue stays, and when it is due it takes the second request. *)
Definition outs (r : option (layer N * list (lout N))) : list (lout N) := match r with Some (_, os) => os | None => [] end.
Definition after (es : list (levent N)) (e : levent N) : list (lout N) :=
  match lrun layer_init es with Some (l, _) => outs (lstep l e) | None => [] end.
Lemma due_out es e o : after es e = [o] → ∃ l os l', lrun layer_init es = Some (l, os) ∧ lstep l e = Some (l', [o]).
Proof.
  unfold after, outs. destruct (lrun layer_init es) as [[l os]|]; [|done]. destruct (lstep l e) as [[l' os']|] eqn:E; [|done].
  intros ->. eauto.
Qed.
Definition twice : list (levent N) := [LRegister 1; LInsert 1 7 10 100; LTick 5; LInsert 1 7 3600 200; LTick 5].
Lemma twice_out : after twice (LExpire 0) = [TimedOut 1 7 200].
Proof. by vm_compute. Qed.
Theorem C31_refuted :
  ∃ (es : list (levent N)) l os k l' c t x due,
    lrun layer_init es = Some (l, os) ∧ lstep l (LExpire k) = Some (l', [TimedOut c t x]) ∧
    latest c t 0 es None = Some (due, x) ∧ clock es < due.
Proof.
  destruct (due_out _ _ _ twice_out) as (l & os & l' & E & E'). exists twice, l, os, 0, l', 1, 7, 200, 3605. split; [exact E|]. split; [exact E'|]. split; [reflexivity|]. reflexivity.
Qed.
(** and for one used again after the end of the session, which drops the requests but not their entries *)
Definition reconnect : list (levent N) :=
  [LRegister 1; LInsert 1 7 10 100; LShutdown 1; LRegister 1; LTick 5; LInsert 1 7 3600 200; LTick 5].
Lemma reconnect_out : after reconnect (LExpire 0) = [TimedOut 1 7 200].
Proof. by vm_compute. Qed.
Theorem C31_after_reconnect_refuted :
  ∃ (es : list (levent N)) l os k l' c t x due,
    lrun layer_init es = Some (l, os) ∧ lstep l (LExpire k) = Some (l', [TimedOut c t x]) ∧
    latest c t 0 es None = Some (due, x) ∧ clock es < due.
Proof.
  destruct (due_out _ _ _ reconnect_out) as (l & os & l' & E & E'). exists reconnect, l, os, 0, l', 1, 7, 200, 3605. split; [exact E|]. split; [exact E'|]. split; [reflexivity|]. reflexivity.
Qed.

(** Examples: one request is answered and its ticket used again, another times out. *)
Definition two_requests : list (levent N) :=
  [LRegister 1; LInsert 1 7 10 100; LInsert 1 8 20 300; LTick 5; LAnswer 1 7; LAnswer 1 7; LInsert 1 7 3600 200; LTick 15; LExpire 0].
Definition fresh_ticket {A : Type} (op : gset (N * N)) (e : levent A) : Prop := match e with LInsert c t _ _ => (c, t) ∉ op | _ => True end.
#[local] Instance fresh_dec {A : Type} (op : gset (N * N)) (e : levent A) : Decision (fresh_ticket op e).
Proof. destruct e; cbn; apply _. Defined.
#[local] Instance careful_dec {A : Type} (es : list (levent A)) l op : Decision (careful l op es).
Proof.
  revert l op. induction es as [|e es IH]; intros l op; cbn [careful]; [apply _|].
  apply and_dec; [apply (fresh_dec op e)|]. destruct (lstep l e) as [[l' os]|]; [apply IH|apply _].
Defined.
Lemma two_requests_careful : careful layer_init ∅ two_requests.
Proof. apply (bool_decide_unpack _). by vm_compute. Qed.
Example C31_example :
  careful layer_init ∅ two_requests ∧
  outs (lrun layer_init (two_requests ++ [LExpire 1; LExpire 2])) = [Answered 1 7 100; TimedOut 1 8 300] ∧
  times_made 1 7 100 two_requests = 1%nat.
Proof. split; [apply two_requests_careful|]. split; by vm_compute. Qed.

Print Assumptions C31_at_most_once.
Print Assumptions C31_not_early_partial.
Print Assumptions C31_refuted.
Print Assumptions C31_after_reconnect_refuted.
