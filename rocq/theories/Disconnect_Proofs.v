From stdpp Require Import prelude gmap.
From Verif Require Import Disconnect_Model Disconnect_Spec.

Definition marked (x : subject) (s : tracker) : bool :=
  match x with SC2s t => bool_decide (t ∈ t_c2s s) | SP2p t c => bool_decide ((t, c) ∈ t_p2p s) end.

Lemma step_marked x s op :
  (attempts x op = true -> (dstep s op).2 = negb (marked x s) /\ marked x (dstep s op).1 = true) /\
  (attempts x op = false -> clears x op = true -> marked x (dstep s op).1 = false) /\
  (attempts x op = false -> clears x op = false -> marked x (dstep s op).1 = marked x s).
Proof.
  destruct x as [t|t c], op as [t'|t' c'|t' c'|t'|t']; cbn; (split; [|split]); intros; simplify_eq; try done;
  repeat match goal with
  | H : _ && _ = true |- _ => apply andb_true_iff in H as [? ?]
  | H : bool_decide _ = true |- _ => apply bool_decide_eq_true in H; subst
  end;
  try (split; [rewrite <- bool_decide_not; apply bool_decide_ext; set_solver|]);
  try apply bool_decide_eq_true; try apply bool_decide_eq_false; try (apply bool_decide_ext);
  repeat match goal with
  | H : _ && _ = false |- _ => apply andb_false_iff in H
  | H : bool_decide _ = false |- _ => apply bool_decide_eq_false in H
  end; try set_solver.
  - destruct H as [H|H]; apply bool_decide_eq_false in H; set_solver.
  - destruct H0 as [H0|H0]; apply bool_decide_eq_false in H0; set_solver.
Qed.

Lemma answers_expected x s ops :
  answers x (dtrace s ops) = expected_answers x (negb (marked x s)) ops.
Proof.
  revert s; induction ops as [|op ops IH]; intros s; [done|]. cbn [dtrace].
  destruct (dstep s op) as [s' b] eqn:E. pose proof (step_marked x s op) as (H1 & H2 & H3). rewrite E in *. cbn [fst snd] in *.
  unfold answers. cbn [expected_answers]. destruct (attempts x op) eqn:Ea.
  - destruct H1 as [-> Hm]; [done|]. rewrite filter_cons_True by done. cbn. f_equal. fold (answers x (dtrace s' ops)). rewrite IH, Hm. done.
  - rewrite filter_cons_False by (cbn; congruence). fold (answers x (dtrace s' ops)). rewrite IH.
    destruct (clears x op) eqn:Ec; [by rewrite H2|by rewrite H3].
Qed.

Lemma expected_once x ops : forall fresh,
  Forall (fun op => clears x op = false) ops ->
  length (filter (fun b => b = true) (expected_answers x fresh ops)) <= 1 /\
  (fresh = false -> filter (fun b => b = true) (expected_answers x fresh ops) = []) /\
  (fresh = true -> Exists (fun op => attempts x op = true) ops -> head (expected_answers x fresh ops) = Some true).
Proof.
  induction ops as [|op ops IH]; intros fresh H.
  - cbn. split; [lia|]. split; [done|]. intros _ Hx. inversion Hx.
  - inversion H as [|? ? Hc H']; subst. cbn [expected_answers]. rewrite Hc. destruct (attempts x op) eqn:Ea.
    + destruct (IH false H') as (_ & Hn & _). specialize (Hn eq_refl). destruct fresh.
      * rewrite filter_cons_True by done. rewrite Hn. cbn. split; [lia|]. done.
      * rewrite filter_cons_False by done. rewrite Hn. cbn. split; [lia|]. done.
    + destruct (IH fresh H') as (H1 & H2 & H3). split; [done|]. split; [done|]. intros Hf Hx. apply H3; [done|].
      inversion Hx; congruence.
Qed.
