(** C27: at most one disconnect notification per connection life. *)
From stdpp Require Import prelude gmap.
From Verif Require Import Disconnect_Model Disconnect_Spec Disconnect_Proofs.
Local Open Scope N_scope.

(** For every schedule and every session or peer connection [x]: the answers given to the attempts
    for [x] depend only on attempts and clears of [x] itself and are exactly the expected ones. *)
Theorem C27_answers_exact : forall x ops,
  answers x (dtrace tracker_init ops) = expected_answers x true ops.
Proof. intros x ops. rewrite answers_expected. by destruct x. Qed.
Print Assumptions C27_answers_exact.

(** Within one life (no clear of [x] in [ops]) at most one attempt is granted, and it is the first. *)
Theorem C27_at_most_one : forall x before ops,
  Forall (fun op => clears x op = false) ops ->
  forall s, s = foldl (fun s op => (dstep s op).1) tracker_init before ->
  (length (filter (fun b => b = true) (answers x (dtrace s ops))) <= 1)%nat.
Proof. intros x before ops H s ->. rewrite answers_expected. by apply expected_once. Qed.
Print Assumptions C27_at_most_one.

Theorem C27_first_granted : forall x before clear ops,
  Forall (fun op => clears x op = false) ops ->
  clears x clear = true ->
  Exists (fun op => attempts x op = true) ops ->
  forall s, s = foldl (fun s op => (dstep s op).1) tracker_init (before ++ [clear]) ->
  head (answers x (dtrace s ops)) = Some true.
Proof.
  intros x before clear ops H Hc Hx s ->. rewrite answers_expected, foldl_app. cbn [foldl].
  destruct (step_marked x (foldl (fun s op => (dstep s op).1) tracker_init before) clear) as (_ & H2 & _).
  rewrite H2 by (done || by destruct x, clear). by apply expected_once.
Qed.
Print Assumptions C27_first_granted.

Example C27_example :
  dtrace tracker_init [TryP2p 1 7; TryP2p 1 7; TryP2p 2 7; TryC2s 1; ClearP2p 1 7; TryP2p 1 7; TryC2s 1; ClearSessionC2s 1; TryC2s 1] =
  [(TryP2p 1 7, true); (TryP2p 1 7, false); (TryP2p 2 7, true); (TryC2s 1, true); (ClearP2p 1 7, false); (TryP2p 1 7, true);
   (TryC2s 1, false); (ClearSessionC2s 1, false); (TryC2s 1, true)] /\
  answers (SP2p 1 7) (dtrace tracker_init [TryP2p 1 7; TryP2p 1 7; TryP2p 2 7; ClearP2p 1 7; TryP2p 1 7]) = [true; false; true].
Proof. vm_compute. done. Qed.
