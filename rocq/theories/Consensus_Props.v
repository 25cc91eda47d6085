(** C95–C99: two nodes deciding together (net_select_ok, net_select, net_try_join, net_join). *)
From Coq Require Import ZifyBool ZifyNat ZifyN.
From stdpp Require Import prelude gmap.
From Verif Require Import Consensus_Model Consensus_Spec Consensus_Proofs.
Local Open Scope N_scope.

Lemma select_Hfin ret m v a ret' : select_dec ret m = Some (v, a) → is_Some (select_fin ret' v).
Proof. intros E. unfold select_dec in E. destruct ret as [[]|], (implies_success m), (implies_failure m); simplify_eq; cbn; by eexists. Qed.
Lemma try_Hfin ret m v a ret' : try_dec ret m = Some (v, a) → is_Some (try_fin ret' v).
Proof. intros E. unfold try_dec in E. repeat case_match; simplify_eq; cbn; by eexists. Qed.
Lemma select_inv es x : srun init es = Some x → Inv select_dec select_fin x.
Proof. intros E. eapply Inv_run; [apply select_Hfin|apply Inv_init|exact E]. Qed.
Lemma try_inv es x : jrun init es = Some x → Inv try_dec try_fin x.
Proof. intros E. eapply Inv_run; [apply try_Hfin|apply Inv_init|exact E]. Qed.

Lemma truthful_success ret m : truthful ret m → implies_success m = true → succeeded ret.
Proof. intros [_ H] Hm. destruct m as [| |[[]|]|]; try done; specialize (H true eq_refl); destruct ret as [[v|]|]; try done; by exists v. Qed.
Lemma truthful_failure ret m : truthful ret m → implies_failure m = true → errored ret.
Proof. intros [_ H] Hm. destruct m as [| |[[]|]|]; try done; specialize (H false eq_refl); by destruct ret as [[v|]|]. Qed.

(** ** C95: one winner, known to both *)
Theorem C95_one_winner es x a b :
  srun init es = Some x → returns x a b →
  (∃ v, outcome true es = Some (Some v) ∧ a = mk_select (Some v) false ∧ b = mk_select None true) ∨
  (∃ v, outcome false es = Some (Some v) ∧ a = mk_select None true ∧ b = mk_select (Some v) false) ∨
  (errored (outcome true es) ∧ errored (outcome false es) ∧ a = mk_select None false ∧ b = mk_select None false).
Proof.
  intros E [Ha Hb]. destruct (run_init_ret _ _ _ _ E) as [Hp Hn]. rewrite <- Hp, <- Hn. destruct (select_inv _ _ E) as (_ & I2 & _).
  destruct (w_v x) as [v|]; [|destruct I2; congruence]. destruct I2 as (m & a' & Ht & Hd & Ha' & [(? & _)|(b' & Hf & Hb')]); [congruence|].
  assert (a' = a) as -> by congruence. assert (b' = b) as -> by congruence. unfold select_dec in Hd.
  destruct (e_ret (w_p x)) as [[u|]|] eqn:Er.
  - injection Hd as <- <-. cbn in Hf. injection Hf as <-. left. by exists u.
  - destruct (implies_success m) eqn:Es.
    + injection Hd as <- <-. destruct (truthful_success _ _ Ht Es) as [u Hu]. rewrite Hu in Hf |- *. cbn in Hf. injection Hf as <-. right. left. by exists u.
    + destruct (implies_failure m) eqn:Ef; [|done]. injection Hd as <- <-. cbn in Hf. injection Hf as <-. right. right. by split_and!; [|apply (truthful_failure _ _ Ht Ef)|..].
  - destruct (implies_success m) eqn:Es; [|done].
    injection Hd as <- <-. destruct (truthful_success _ _ Ht Es) as [u Hu]. rewrite Hu in Hf |- *. cbn in Hf. injection Hf as <-. right. left. by exists u.
Qed.
Print Assumptions C95_one_winner.

(** both nodes report a global failure exactly if both futures failed *)
Theorem C95_global_failure es x a b :
  srun init es = Some x → returns x a b →
  (global_failure a = true ↔ errored (outcome true es) ∧ errored (outcome false es)) ∧ global_failure b = global_failure a.
Proof.
  intros E Hr. destruct (C95_one_winner _ _ _ _ E Hr) as [(v & Ho & -> & ->)|[(v & Ho & -> & ->)|(He1 & He2 & -> & ->)]]; (split; [|done]).
  - split; [done|]. rewrite Ho. by intros [? _].
  - split; [done|]. rewrite Ho. by intros [_ ?].
  - done.
Qed.
Print Assumptions C95_global_failure.

(** net_select: if no future fails, exactly one node gets a value *)
Theorem C95_net_select es x a b :
  (∀ p, outcome p es ≠ Some None) → srun init es = Some x → returns x a b →
  ∃ v, (net_select_result a = Some v ∧ net_select_result b = None ∧ outcome true es = Some (Some v)) ∨
       (net_select_result a = None ∧ net_select_result b = Some v ∧ outcome false es = Some (Some v)).
Proof.
  intros Hok E Hr. destruct (C95_one_winner _ _ _ _ E Hr) as [(v & ? & -> & ->)|[(v & ? & -> & ->)|(He & _)]].
  - exists v. by left.
  - exists v. by right.
  - by destruct (Hok true).
Qed.
Print Assumptions C95_net_select.

(** the other node wins after the preferred one has failed; then: both fail *)
Example C95_example_adjacent :
  e_out ∘ w_p <$> srun init [Finish true None; ToN; ToP; Finish false (Some 7); ToN; ToP; ToP; ToN] = Some (Some (mk_select None true)) ∧
  e_out ∘ w_n <$> srun init [Finish true None; ToN; ToP; Finish false (Some 7); ToN; ToP; ToP; ToN] = Some (Some (mk_select (Some 7) false)).
Proof. split; by vm_compute. Qed.
Example C95_example_fail :
  e_out ∘ w_p <$> srun init [Finish true None; Finish false None; ToP; ToN; ToN] = Some (Some (mk_select None false)) ∧
  e_out ∘ w_n <$> srun init [Finish true None; Finish false None; ToP; ToN; ToN] = Some (Some (mk_select None false)).
Proof. split; by vm_compute. Qed.

(** ** C96: the operations end, and not too early *)
Lemma finished_not_none (o : option result) : finished o → o ≠ None.
Proof. by intros [r ->]. Qed.
Theorem C96_select es x :
  srun init es = Some x →
  succeeded (outcome true es) ∨ succeeded (outcome false es) ∨ (finished (outcome true es) ∧ finished (outcome false es)) →
  ∀ es' x', Forall delivery es' → srun x es' = Some x' →
    (length es' ≤ 9)%nat ∧
    (both_returned x' ∨ is_Some (step select_dec select_fin x' ToP) ∨ is_Some (step select_dec select_fin x' ToN)).
Proof.
  intros E Hc es' x' He E'. destruct (run_init_ret _ _ _ _ E) as [Hp Hn]. rewrite <- Hp, <- Hn in Hc. clear Hp Hn.
  assert (Hd : decided select_dec x).
  { unfold decided, select_dec. destruct Hc as [[v Hv]|[[v Hv]|[[rp Hv] [rn Hv']]]]; rewrite ?Hv, ?Hv'; [by eexists|destruct (e_ret (w_p x)) as [[]|]; by eexists|].
    destruct rp, rn; by eexists. }
  pose proof (select_inv _ _ E) as HI. pose proof (mu_run _ _ _ _ _ Hd He E'). pose proof (mu_bound _ _ _ HI). split; [lia|].
  assert (HI' : Inv select_dec select_fin x') by (eapply Inv_run; [apply select_Hfin|exact HI|exact E']).
  destruct (step select_dec select_fin x' ToP) eqn:E1; [right; left; by eexists|].
  destruct (step select_dec select_fin x' ToN) eqn:E2; [right; right; by eexists|].
  left. eapply quiet_returned; [exact HI'| |exact E1|exact E2]. destruct (run_ret _ _ _ _ _ E') as [-> ->].
  destruct Hc as [[v ->]|[[v ->]|[[r ->] _]]]; [by left|by right|by left].
Qed.
Print Assumptions C96_select.

Theorem C96_join es x :
  jrun init es = Some x →
  errored (outcome true es) ∨ errored (outcome false es) ∨ (finished (outcome true es) ∧ finished (outcome false es)) →
  ∀ es' x', Forall delivery es' → jrun x es' = Some x' →
    (length es' ≤ 9)%nat ∧
    (both_returned x' ∨ is_Some (step try_dec try_fin x' ToP) ∨ is_Some (step try_dec try_fin x' ToN)).
Proof.
  intros E Hc es' x' He E'. destruct (run_init_ret _ _ _ _ E) as [Hp Hn]. rewrite <- Hp, <- Hn in Hc. clear Hp Hn.
  assert (Hd : decided try_dec x).
  { unfold decided, try_dec. destruct Hc as [Hv|[Hv|[[rp Hv] [rn Hv']]]]; rewrite ?Hv, ?Hv'; [destruct (info _) as [[]|]; by eexists|by eexists|].
    destruct rp, rn; by eexists. }
  pose proof (try_inv _ _ E) as HI. pose proof (mu_run _ _ _ _ _ Hd He E'). pose proof (mu_bound _ _ _ HI). split; [lia|].
  assert (HI' : Inv try_dec try_fin x') by (eapply Inv_run; [apply try_Hfin|exact HI|exact E']).
  destruct (step try_dec try_fin x' ToP) eqn:E1; [right; left; by eexists|].
  destruct (step try_dec try_fin x' ToN) eqn:E2; [right; right; by eexists|].
  left. eapply quiet_returned; [exact HI'| |exact E1|exact E2]. destruct (run_ret _ _ _ _ _ E') as [-> ->].
  destruct Hc as [->|[->|[[r ->] _]]]; [by left|by right|by left].
Qed.
Print Assumptions C96_join.

(** neither node returns before the futures allow it *)
Theorem C96_select_waits es x :
  srun init es = Some x → is_Some (e_out (w_p x)) ∨ is_Some (e_out (w_n x)) →
  succeeded (outcome true es) ∨ succeeded (outcome false es) ∨ (errored (outcome true es) ∧ errored (outcome false es)).
Proof.
  intros E Ho. destruct (run_init_ret _ _ _ _ E) as [Hp Hn]. rewrite <- Hp, <- Hn. destruct (select_inv _ _ E) as (_ & I2 & _).
  destruct (w_v x) as [v|]; [|destruct I2 as (H1 & H2 & _); rewrite H1, H2 in Ho; by destruct Ho as [[]|[]]]. destruct I2 as (m & a' & Ht & Hd & _). unfold select_dec in Hd.
  destruct (e_ret (w_p x)) as [[u|]|] eqn:Er; [left; by exists u|..]; destruct (implies_success m) eqn:Es.
  - right. left. by eapply truthful_success.
  - destruct (implies_failure m) eqn:Ef; [|done]. right. right. split; [done|by eapply truthful_failure].
  - right. left. by eapply truthful_success.
  - done.
Qed.
Print Assumptions C96_select_waits.
Theorem C96_join_waits es x :
  jrun init es = Some x → is_Some (e_out (w_p x)) ∨ is_Some (e_out (w_n x)) →
  errored (outcome true es) ∨ errored (outcome false es) ∨ (succeeded (outcome true es) ∧ succeeded (outcome false es)).
Proof.
  intros E Ho. destruct (run_init_ret _ _ _ _ E) as [Hp Hn]. rewrite <- Hp, <- Hn. destruct (try_inv _ _ E) as (_ & I2 & _).
  destruct (w_v x) as [v|]; [|destruct I2 as (H1 & H2 & _); rewrite H1, H2 in Ho; by destruct Ho as [[]|[]]]. destruct I2 as (m & a' & Ht & Hd & _). unfold try_dec in Hd.
  destruct (implies_failure m) eqn:Ef; [right; left; by eapply truthful_failure|]. cbn [orb] in Hd.
  case_bool_decide as Eb; [left; exact Eb|]. destruct (implies_success m) eqn:Es; [|done]. destruct (e_ret (w_p x)) as [[u|]|] eqn:Er; [|done..].
  right. right. split; [by exists u|by eapply truthful_success].
Qed.
Print Assumptions C96_join_waits.

(** an error of the other node ends a try_join while the preferred node's future is still pending *)
Example C96_example :
  match jrun init [Finish false None; ToP; ToN] with
  | Some x => (e_out (w_p x), e_out (w_n x)) = (Some None, Some (Some None)) ∧ to_p x = [] ∧ to_n x = []
  | None => False
  end.
Proof. vm_compute. done. Qed.
(** the two results cross *)
Example C96_example_long :
  is_Some (srun init [Finish true (Some 1); Finish false (Some 2); ToN; ToP; ToP; ToN]) ∧
  both_returned (default init (srun init [Finish true (Some 1); Finish false (Some 2); ToN; ToP; ToP; ToN])).
Proof. split; [eexists; vm_compute; reflexivity|]. exists (mk_select (Some 1) false), (mk_select None true). split; by vm_compute. Qed.

(** ** C97: the first node to succeed wins *)
Definition C97_full : Prop := ∀ es x a b p q i j u v,
  srun init es = Some x → returns x a b → p ≠ q →
  outcome p es = Some (Some u) → place p es = Some i → outcome q es = Some (Some v) → place q es = Some j → (i < j)%nat →
  sr_result (if p then a else b) = Some u.
(** both succeed, the other node first; the preferred one wins, since it had its result before it heard *)
Definition race : list event := [Finish false (Some 2); Finish true (Some 1); ToP; ToN; ToN].
Theorem C97_refuted : ¬ C97_full.
Proof.
  intros H. destruct (srun init race) as [x|] eqn:E; [|by vm_compute in E].
  specialize (H race x (mk_select (Some 1) false) (mk_select None true) false true 0%nat 1%nat 2 1 E).
  assert (Hr : returns x (mk_select (Some 1) false) (mk_select None true)) by (vm_compute in E; injection E as <-; split; reflexivity).
  specialize (H Hr ltac:(done) eq_refl eq_refl eq_refl eq_refl ltac:(lia)). done.
Qed.
Print Assumptions C97_refuted.
(** what holds: the preferred node wins if it succeeds at all before the end, the other one only if the preferred one
    did not; so a preferred node that succeeds first wins *)
Theorem C97_partial es x a b :
  srun init es = Some x → returns x a b →
  (∀ v, outcome true es = Some (Some v) → sr_result a = Some v) ∧
  (∀ v, ¬ succeeded (outcome true es) → outcome false es = Some (Some v) → sr_result b = Some v).
Proof.
  intros E Hr. destruct (run_init_ret _ _ _ _ E) as [Hp Hn]. destruct (select_inv _ _ E) as (_ & I2 & _).
  destruct (C95_one_winner _ _ _ _ E Hr) as [(v & Ho & -> & ->)|[(v & Ho & -> & ->)|(He1 & He2 & -> & ->)]].
  - split; [intros ?; rewrite Ho; by intros [= ->]|]. intros ? Hns. destruct Hns. by exists v.
  - split; [|intros ? _; rewrite Ho; by intros [= ->]]. intros u Hu. rewrite <- Hp in Hu. destruct Hr as [Ha Hb].
    destruct (w_v x); [|destruct I2 as [? _]; congruence]. destruct I2 as (m & a' & _ & Hd & Ha' & _). rewrite Hu in Hd. injection Hd as _ <-. rewrite Ha in Ha'. discriminate Ha'.
  - unfold errored in *. split; intros ?; congruence.
Qed.
Print Assumptions C97_partial.
Example C97_example : both_returned (default init (srun init race)) ∧ succeeded (outcome true race) ∧ succeeded (outcome false race).
Proof. split; [exists (mk_select (Some 1) false), (mk_select None true); split; by vm_compute|]. split; by eexists. Qed.

(** ** C98: other_side_succeeded says whether the future of the other side succeeded *)
Definition C98_full : Prop := ∀ es x a b,
  srun init es = Some x → returns x a b →
  (sr_other a = true ↔ succeeded (outcome false es)) ∧ (sr_other b = true ↔ succeeded (outcome true es)).
Theorem C98_refuted : ¬ C98_full.
Proof.
  intros H. destruct (srun init race) as [x|] eqn:E; [|by vm_compute in E].
  specialize (H race x (mk_select (Some 1) false) (mk_select None true) E).
  assert (Hr : returns x (mk_select (Some 1) false) (mk_select None true)) by (vm_compute in E; injection E as <-; split; reflexivity).
  destruct (H Hr) as [[_ H1] _]. specialize (H1 ltac:(by eexists)). done.
Qed.
Print Assumptions C98_refuted.
(** what holds: it is right at a node that did not win, and true only if the other side won *)
Theorem C98_partial es x a b :
  srun init es = Some x → returns x a b →
  (sr_result a = None → (sr_other a = true ↔ succeeded (outcome false es))) ∧
  (sr_result b = None → (sr_other b = true ↔ succeeded (outcome true es))) ∧
  (sr_other a = true ↔ is_Some (sr_result b)) ∧ (sr_other b = true ↔ is_Some (sr_result a)).
Proof.
  intros E Hr. assert (Hns : ¬ is_Some (@None N)) by (by intros []).
  destruct (C95_one_winner _ _ _ _ E Hr) as [(v & Ho & -> & ->)|[(v & Ho & -> & ->)|(He1 & He2 & -> & ->)]]; cbn.
  - rewrite Ho. split_and!; [done|split; [by eexists|done]|by split|by split].
  - rewrite Ho. split_and!; [split; [by eexists|done]|done|by split|by split].
  - unfold errored in *. rewrite He1, He2. split_and!; [split; [done|by intros []]|split; [done|by intros []]|by split|by split].
Qed.
Print Assumptions C98_partial.

(** ** C99: a node that gets Ok from net_try_join knows that both sides succeeded *)
Definition C99_full : Prop := ∀ es x a b,
  jrun init es = Some x → returns x a b →
  (succeeded a → succeeded (outcome false es)) ∧ (succeeded b → succeeded (outcome true es)).
Definition half_joined : list event := [Finish true (Some 1); ToN; Finish false None; ToP; ToN; ToP; ToN].
Theorem C99_refuted : ¬ C99_full.
Proof.
  intros H. destruct (jrun init half_joined) as [x|] eqn:E; [|by vm_compute in E].
  specialize (H half_joined x (Some (Some 1)) (Some None) E).
  assert (Hr : returns x (Some (Some 1)) (Some None)) by (vm_compute in E; injection E as <-; split; reflexivity).
  destruct (H Hr) as [H1 _]. destruct (H1 ltac:(by eexists)) as [v Hv]. done.
Qed.
Print Assumptions C99_refuted.
(** what holds: each node gets exactly what its own future produced; both get Ok exactly if both futures
    succeeded, and otherwise the future of one of them failed, at which the error is returned *)
Theorem C99_partial es x a b :
  jrun init es = Some x → returns x a b →
  a = outcome true es ∧ b = outcome false es ∧
  (errored a ∨ errored b ∨ (succeeded a ∧ succeeded b)).
Proof.
  intros E [Ha Hb]. assert (Hw := C96_join_waits _ _ E ltac:(left; by eexists)).
  destruct (run_init_ret _ _ _ _ E) as [Hp Hn]. destruct (try_inv _ _ E) as (_ & I2 & _).
  destruct (w_v x) as [v|]; [|destruct I2; congruence]. destruct I2 as (m & a' & Ht & Hd & Ha' & [(? & _)|(b' & Hf & Hb')]); [congruence|].
  assert (a' = a) as -> by congruence. assert (b' = b) as -> by congruence.
  assert (a = e_ret (w_p x)) as Ea by (unfold try_dec in Hd; repeat case_match; congruence).
  assert (b = e_ret (w_n x)) as Eb by (destruct v; cbn in Hf; congruence).
  rewrite Hp in Ea. rewrite Hn in Eb. subst a b. done.
Qed.
Print Assumptions C99_partial.
(** net_join: if no future fails, both nodes get their values, and both futures were ready *)
Theorem C99_net_join es x a b :
  (∀ p, outcome p es ≠ Some None) → jrun init es = Some x → returns x a b →
  ∃ u v, outcome true es = Some (Some u) ∧ outcome false es = Some (Some v) ∧ a = Some (Some u) ∧ b = Some (Some v).
Proof.
  intros Hok E Hr. destruct (C99_partial _ _ _ _ E Hr) as (-> & -> & [He|[He|[[u Hu] [v Hv]]]]); [by destruct (Hok true)|by destruct (Hok false)|].
  exists u, v. by rewrite Hu, Hv.
Qed.
Print Assumptions C99_net_join.
Example C99_example : both_returned (default init (jrun init [Finish true (Some 1); Finish false (Some 2); ToP; ToN; ToN])).
Proof. exists (Some (Some 1)), (Some (Some 2)). split; by vm_compute. Qed.
