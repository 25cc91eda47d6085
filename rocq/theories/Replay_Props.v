(** C01, C02, C03: anti-replay window. *)
From Coq Require Import ZifyBool ZifyNat ZifyN.
From stdpp Require Import prelude gmap.
From Verif Require Import Replay_Model Replay_Spec Replay_Proofs.
Local Open Scope N_scope.

(** C01: between resets no ID is answered "accept" twice. *)
Theorem C01_no_id_accepted_twice : forall ops,
  u64_ops ops ->
  NoDup (accepted_since_reset (zip ops (run ara_default ops).1)).
Proof. exact accepted_nodup. Qed.
Print Assumptions C01_no_id_accepted_twice.

Example C01_example :
  let ops := [Recv 5; Recv 5; Recv 3; Recv 3000; Recv 5; Recv 2500; Recv 2500; Recv (2^64-1); Recv (2^64-1);
              Recv (2^64-2); Reset; Recv 5; Recv 5] in
  (run ara_default ops).1 =
    (OVerdict <$> [true; false; true; true; false; true; false; true; false; true]) ++ [OUnit] ++
    (OVerdict <$> [true; false])
  /\ accepted_since_reset (zip ops (run ara_default ops).1) = [5]
  /\ accepted_since_reset (zip (take 10 ops) (run ara_default (take 10 ops)).1) =
       [5; 3; 3000; 2500; 2^64-1; 2^64-2].
Proof. vm_compute. repeat split; reflexivity. Qed.

(** C01, sending side: IDs handed out are pairwise different for the first 2^64 calls. *)
Theorem C01_issued_ids_distinct : forall ops,
  let iss := issued_since_reset (zip ops (run ara_default ops).1) in
  N.of_nat (length iss) <= 2 ^ 64 -> NoDup iss.
Proof. exact issued_distinct. Qed.
Print Assumptions C01_issued_ids_distinct.

Example C01_issued_example :
  issued_since_reset (zip [NextPid; Recv 7; NextPid; NextPid]
     (run ara_default [NextPid; Recv 7; NextPid; NextPid]).1) = [0; 1; 2].
Proof. reflexivity. Qed.

(** C02: the verdict on the next ID is exactly the documented window rule, and a refusal
    changes nothing. *)
Theorem C02_verdict_is_window_rule : forall ops pid,
  u64_ops ops -> pid < 2 ^ 64 ->
  let h := zip ops (run ara_default ops).1 in
  let '(answer, s') := step (run ara_default ops).2 (Recv pid) in
  (answer = OVerdict true /\ fresh_in_window (accepted_since_reset h) pid) \/
  (answer = OVerdict false /\ ~ fresh_in_window (accepted_since_reset h) pid /\
     s' = (run ara_default ops).2).
Proof. exact verdict_exact. Qed.
Print Assumptions C02_verdict_is_window_rule.

(** Boundary: after 5000, ID 3977 (= 5001 - 1024) is accepted and 3976 refused. *)
Example C02_example :
  (run ara_default [Recv 5000; Recv 3976; Recv 3977]).1 =
     OVerdict <$> [true; false; true].
Proof. vm_compute. reflexivity. Qed.

(** C03: bounded memory, and only accepted IDs are remembered. *)
Theorem C03_memory_bounded : forall ops,
  u64_ops ops ->
  let s := (run ara_default ops).2 in
  let acc := accepted_since_reset (zip ops (run ara_default ops).1) in
  (size (ara_seen s) <= 1025)%nat /\ (2 ^ 64 - 1 ∉ acc -> (size (ara_seen s) <= 1024)%nat).
Proof. exact seen_bounded. Qed.
Print Assumptions C03_memory_bounded.

Theorem C03_only_accepted_remembered : forall ops q,
  u64_ops ops ->
  q ∈ ara_seen (run ara_default ops).2 ->
  q ∈ accepted_since_reset (zip ops (run ara_default ops).1).
Proof. exact seen_incl_accepted. Qed.
Print Assumptions C03_only_accepted_remembered.

(** One more reception of a descending run from the largest ID. *)
Lemma descend_step (k : nat) seen : (k ≤ 1024)%nat → u64_max - N.of_nat k ∉ seen →
  on_pid_received (mk_ara u64_max seen 0) (u64_max - N.of_nat k) =
  (true, mk_ara u64_max ({[u64_max - N.of_nat k]} ∪ seen) 0).
Proof.
  intros Hk Hn. unfold on_pid_received, sat_succ, HISTORY_LEN. cbn [ara_high_water ara_seen ara_counter_out].
  assert (HM : 2048 < u64_max) by (by vm_compute). revert HM Hn. generalize u64_max as M. intros M HM Hn.
  rewrite (bool_decide_false (_ < _)) by lia. rewrite (bool_decide_false (_ ∈ seen)) by done.
  replace (N.max M _) with M by lia. by rewrite (bool_decide_false (_ < _)) by lia.
Qed.
Lemma descend_run l : ∀ (k : nat) seen, (k + l ≤ 1025)%nat → (∀ q, q ∈ seen → u64_max - N.of_nat k < q) →
  size (ara_seen (run (mk_ara u64_max seen 0) ((λ j, Recv (u64_max - N.of_nat j)) <$> seq k l)).2) = (size seen + l)%nat.
Proof.
  induction l as [|l IH]; intros k seen Hk Hs; [cbn; lia|]. cbn [seq fmap list_fmap run step].
  assert (Hn : u64_max - N.of_nat k ∉ seen) by (intros H; apply Hs in H; lia).
  rewrite descend_step by (done || lia). specialize (IH (Datatypes.S k) ({[u64_max - N.of_nat k]} ∪ seen)). 
  destruct (run _ _) as [xs s2]. cbn [snd] in *. rewrite IH; [|lia|].
  - rewrite size_union by set_solver. rewrite size_singleton. lia.
  - assert (HM : 2048 < u64_max) by (by vm_compute). revert HM Hn Hs. generalize u64_max as M. intros M HM Hn Hs q Hq.
    apply elem_of_union in Hq as [->%elem_of_singleton|Hq]; [lia|]. apply Hs in Hq. lia.
Qed.
(** A history in which the bound 1025 (one more than the comment in the code promises) is reached:
    the 1025 largest IDs, from 2^64 - 1 down. *)
Example C03_example :
  size (ara_seen (run ara_default ((λ j, Recv (2 ^ 64 - 1 - N.of_nat j)) <$> seq 0 1025)).2) = 1025%nat.
Proof.
  change (2 ^ 64 - 1) with u64_max. change (seq 0 1025) with (0%nat :: seq 1 1024). cbn [fmap list_fmap run step].
  assert (E : on_pid_received ara_default (u64_max - N.of_nat 0) = (true, mk_ara u64_max {[u64_max]} 0)).
  { unfold on_pid_received, sat_succ, HISTORY_LEN, ara_default. cbn [ara_high_water ara_seen ara_counter_out].
    assert (HM : 2048 < u64_max) by (by vm_compute). revert HM. generalize u64_max as M. intros M HM.
    rewrite (bool_decide_false (_ < _)) by lia. rewrite (bool_decide_false (_ ∈ ∅)) by set_solver.
    rewrite (bool_decide_true (_ < _)) by lia. rewrite (bool_decide_true (_ <= _)) by lia.
    replace (M - N.of_nat 0) with M by lia. replace (N.max 0 _) with M by lia. f_equal. f_equal.
    apply set_eq. intros x. rewrite elem_of_filter, elem_of_union, elem_of_singleton. split; [set_solver|]. intros ->. split; [lia|by left]. }
  rewrite E. pose proof (descend_run 1024 1 {[u64_max]}) as H.
  set (l := (λ j, Recv (u64_max - N.of_nat j)) <$> seq 1 1024) in *. change (list_fmap _ _ _ (seq 1 1024)) with l.
  destruct (run (mk_ara u64_max {[u64_max]} 0) l) as [xs s2]. cbn [snd] in *. rewrite H; [by rewrite size_singleton|lia|].
  intros q ->%elem_of_singleton. assert (HM : 2048 < u64_max) by (by vm_compute). lia.
Qed.
