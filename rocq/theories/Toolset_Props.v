(** C09, C10: versioned ratchet history. *)
From stdpp Require Import prelude.
From Verif Require Import Toolset_Model Toolset_Spec Toolset_Proofs.
Local Open Scope N_scope.

(** C09. [v0]: version of the first ratchet; [inst]: everything installed so far;
    [d]: how many were truncated. A look-up of version [v] finds exactly the ratchet installed
    as number [v] (mod 2^32) among those not truncated. *)
Theorem C09_lookup_exact :
  forall (K : Type) (MAX : nat), (2 <= MAX)%nat ->
  forall (cid v0 : N) (aux r0 : ratchet K) ops v,
  v0 < 2 ^ 32 -> v < 2 ^ 32 -> Forall u32_op ops ->
  let t0 := mk_toolset cid v0 v0 [r0] aux in
  let '(outs, t) := run MAX t0 ops in
  let inst := installed [r0] (zip ops outs) in
  let d := truncations (zip ops outs) in
  N.of_nat (length inst - d) <= 2 ^ 32 ->
  forall r, get_ratchet t v = Some r <->
    exists i, (d <= i)%nat /\ inst !! i = Some r /\ v = version_of v0 i.
Proof.
  intros K MAX HM cid v0 aux r0 ops v Hv0 Hv Hops t0.
  pose proof (run_inv MAX HM cid v0 aux ops t0 [r0] 0 Hops (inv_new MAX HM cid v0 aux r0 Hv0)) as HI.
  destruct (run MAX t0 ops) as [outs t]. cbn [fst snd] in HI. intros inst d Hb.
  exact (lookup_exact MAX HM cid v0 aux t inst d v Hv HI Hb).
Qed.
Print Assumptions C09_lookup_exact.

(** C09: newest and oldest are the last installed and the first not truncated. *)
Theorem C09_endpoints :
  forall (K : Type) (MAX : nat), (2 <= MAX)%nat ->
  forall (cid v0 : N) (aux r0 : ratchet K) ops,
  v0 < 2 ^ 32 -> Forall u32_op ops ->
  let '(outs, t) := run MAX (mk_toolset cid v0 v0 [r0] aux) ops in
  let inst := installed [r0] (zip ops outs) in
  get_most_recent_ratchet t = last inst /\
  get_oldest_ratchet t = inst !! truncations (zip ops outs) /\
  ts_most_recent t = version_of v0 (length inst - 1) /\
  ts_oldest t = version_of v0 (truncations (zip ops outs)) /\
  (forall i r, inst !! i = Some r -> i <> 0%nat -> r_version r = version_of v0 i /\ r_cid r = cid) /\
  ts_static_aux t = aux.
Proof.
  intros K MAX HM cid v0 aux r0 ops Hv0 Hops.
  pose proof (run_inv MAX HM cid v0 aux ops _ [r0] 0 Hops (inv_new MAX HM cid v0 aux r0 Hv0)) as HI.
  destruct (run MAX _ ops) as [outs t]. cbn [fst snd] in HI. intros inst.
  destruct (endpoints MAX HM _ _ _ _ _ _ HI) as [H1 H2].
  split; [exact H1|]. split; [exact H2|]. split; [apply HI|]. split; [apply HI|]. split; [apply HI|apply HI].
Qed.
Print Assumptions C09_endpoints.

(** Version numbers across the wrap-around: start at 2^32 - 2, install three, look all up. *)
Example C09_example :
  let r v k := mk_ratchet 9 v k in
  let ops := [Update (r (2^32-1) 1%nat); Update (r 5 99%nat); Update (r 0 2%nat); Truncate 7; Update (r 1 3%nat);
              Truncate (2^32-2)] in
  let '(outs, t) := run 4 (mk_toolset 9 (2^32-2) (2^32-2) [r (2^32-2) 0%nat] (r 0 77%nat)) ops in
  outs = [OUpdate (Some (Committed (2^32-1))); OUpdate None; OUpdate (Some (Committed 0)); OTruncate DeregNotMaxed;
          OUpdate (Some (CommittedNeedsSynchronization 1 (2^32-2))); OTruncate DeregOk] /\
  r_key <$> get_ratchet t (2^32-1) = Some 1%nat /\ r_key <$> get_ratchet t 0 = Some 2%nat /\
  r_key <$> get_ratchet t 1 = Some 3%nat /\ get_ratchet t (2^32-2) = None /\ get_ratchet t 2 = None.
Proof. vm_compute. repeat split. Qed.

(** C10: a truncation succeeds exactly when it names the oldest version of a full history; any
    refused operation changes nothing. *)
Theorem C10_truncation_exact :
  forall (K : Type) (MAX : nat), (2 <= MAX)%nat ->
  forall (cid v0 : N) (aux r0 : ratchet K) ops v,
  v0 < 2 ^ 32 -> Forall u32_op ops ->
  let '(outs, t) := run MAX (mk_toolset cid v0 v0 [r0] aux) ops in
  let inst := installed [r0] (zip ops outs) in
  let d := truncations (zip ops outs) in
  (exists t', deregister_oldest_ratchet MAX t v = (DeregOk, t')) <->
  v = version_of v0 d /\ (MAX <= length inst - d)%nat.
Proof.
  intros K MAX HM cid v0 aux r0 ops v Hv0 Hops.
  pose proof (run_inv MAX HM cid v0 aux ops _ [r0] 0 Hops (inv_new MAX HM cid v0 aux r0 Hv0)) as HI.
  destruct (run MAX _ ops) as [outs t]. cbn [fst snd] in HI.
  exact (dereg_exact MAX HM _ _ _ _ _ _ v HI).
Qed.
Print Assumptions C10_truncation_exact.

Theorem C10_refused_update_changes_nothing : forall (K : Type) MAX (t : toolset K) r t',
  update_from MAX t r = (None, t') -> t' = t.
Proof. intros K MAX. exact (update_none_same MAX). Qed.
Print Assumptions C10_refused_update_changes_nothing.

Theorem C10_refused_truncation_changes_nothing : forall (K : Type) MAX (t : toolset K) v x t',
  deregister_oldest_ratchet MAX t v = (x, t') -> x <> DeregOk -> t' = t.
Proof. intros K MAX. exact (dereg_not_ok_same MAX). Qed.
Print Assumptions C10_refused_truncation_changes_nothing.

(** C10: if every "needs synchronization" answer is followed by the truncation it names, the
    truncation succeeds and the history stays below capacity forever. *)
Theorem C10_capacity_respected :
  forall (K : Type) (MAX : nat), (2 <= MAX)%nat ->
  forall (cid v0 : N) (aux r0 : ratchet K) rs,
  v0 < 2 ^ 32 -> Forall (fun r => r_version r < 2 ^ 32) rs ->
  let t := fold_left (fun t r => (update_and_sync MAX t r).2) rs (mk_toolset cid v0 v0 [r0] aux) in
  (length (ts_map t) < MAX)%nat.
Proof.
  intros K MAX HM cid v0 aux r0 rs Hv0 Hrs.
  apply (sync_run MAX HM cid v0 aux rs _ [r0] 0 Hrs (inv_new MAX HM cid v0 aux r0 Hv0)). cbn. lia.
Qed.
Print Assumptions C10_capacity_respected.

Example C10_example :
  let r v := mk_ratchet 9 v tt in
  let rs := r <$> (N.of_nat <$> seq 1 40) in
  let t := fold_left (fun t r => (update_and_sync 6 t r).2) rs (ts_new 9 (r 0)) in
  length (ts_map t) = 5%nat /\ ts_most_recent t = 40 /\ ts_oldest t = 36.
Proof. vm_compute. repeat split. Qed.
