From Coq Require Import ZifyBool ZifyNat ZifyN.
From stdpp Require Import prelude gmap.
From Verif Require Import Replay_Model Replay_Spec.
Local Open Scope N_scope.

Lemma sat_succ_eq x : sat_succ x = N.min (x + 1) (2 ^ 64 - 1).
Proof. reflexivity. Qed.
Lemma HIST_eq : HISTORY_LEN = 1024.
Proof. reflexivity. Qed.

Lemma elem_of_remove_range lo len seen x :
  x ∈ remove_range lo len seen <-> x ∈ seen /\ ~ (lo <= x < lo + N.of_nat len).
Proof.
  revert lo seen; induction len as [|len IH]; intros lo seen; cbn [remove_range].
  - split; [intros H; split; [done|lia]|tauto].
  - rewrite IH, elem_of_difference, elem_of_singleton. split.
    + intros [[H1 H2] H3]. split; [done|]. lia.
    + intros [H1 H2]. repeat split; [done|lia|lia].
Qed.

(** Invariant: [acc] is the list of accepted IDs (since reset). *)
Record Inv (s : ara) (acc : list N) : Prop := {
  inv_nodup : NoDup acc;
  inv_lt : forall q, q ∈ acc -> q < 2 ^ 64;
  inv_hw_ub : forall q, q ∈ acc -> sat_succ q <= ara_high_water s;
  inv_hw_in : acc = [] /\ ara_high_water s = 0 \/
              exists q, q ∈ acc /\ ara_high_water s = sat_succ q;
  inv_seen : forall q, q ∈ ara_seen s <->
               q ∈ acc /\ ara_high_water s <= q + HISTORY_LEN;
}.

Lemma inv_init c : Inv (mk_ara 0 ∅ c) [].
Proof.
  constructor; cbn [ara_high_water ara_seen].
  - constructor.
  - intros q H. by apply elem_of_nil in H.
  - intros q H. by apply elem_of_nil in H.
  - by left.
  - intros q. split.
    + intros H. by apply elem_of_empty in H.
    + intros [H _]. by apply elem_of_nil in H.
Qed.

Lemma inv_hw_bound s acc : Inv s acc -> ara_high_water s <= 2 ^ 64 - 1.
Proof.
  intros HI. destruct (inv_hw_in _ _ HI) as [[_ ->]|(q & _ & ->)]; rewrite ?sat_succ_eq; lia.
Qed.

Lemma on_pid_received_true s acc pid :
  Inv s acc ->
  pid ∉ acc -> ara_high_water s <= pid + HISTORY_LEN -> pid < 2 ^ 64 ->
  exists s', on_pid_received s pid = (true, s') /\ Inv s' (acc ++ [pid]) /\
    ara_counter_out s' = ara_counter_out s.
Proof.
  intros HI Hn Hw Hlt. unfold on_pid_received.
  rewrite bool_decide_eq_false_2 by (rewrite ?HIST_eq in *; lia).
  assert (pid ∉ ara_seen s) as Hns.
  { rewrite (inv_seen _ _ HI). tauto. }
  rewrite (bool_decide_eq_false_2 (pid ∈ ara_seen s)) by done.
  set (new_hw := N.max (ara_high_water s) (sat_succ pid)).
  eexists; split; [reflexivity|]. split; [|reflexivity].
  pose proof (inv_hw_bound _ _ HI) as Hb.
  constructor; cbn [ara_high_water ara_seen].
  - apply NoDup_app. split; [apply HI|]. split; [|apply NoDup_singleton].
    intros x Hx Hx'. apply elem_of_list_singleton in Hx' as ->. done.
  - intros q Hq. apply elem_of_app in Hq as [Hq|Hq]; [by apply (inv_lt _ _ HI)|].
    apply elem_of_list_singleton in Hq as ->. done.
  - intros q Hq. apply elem_of_app in Hq as [Hq|Hq].
    + pose proof (inv_hw_ub _ _ HI _ Hq). unfold new_hw. lia.
    + apply elem_of_list_singleton in Hq as ->. unfold new_hw. lia.
  - right. destruct (decide (ara_high_water s <= sat_succ pid)) as [Hle|Hgt].
    + exists pid. split; [set_solver|]. unfold new_hw. lia.
    + destruct (inv_hw_in _ _ HI) as [[_ H0]|(q & Hq & Hq')]; [lia|].
      exists q. split; [set_solver|]. unfold new_hw. lia.
  - intros q.
    assert (forall seen1 : gset N, (forall x, x ∈ seen1 <-> x ∈ ({[pid]} ∪ ara_seen s) /\ new_hw <= x + HISTORY_LEN) ->
      q ∈ seen1 <-> q ∈ acc ++ [pid] /\ new_hw <= q + HISTORY_LEN) as Hgen.
    { intros seen1 Hs. rewrite Hs, elem_of_union, elem_of_singleton, (inv_seen _ _ HI), elem_of_app, elem_of_list_singleton.
      unfold new_hw. split; [intros [[->|[??]] ?]|intros [[?| ->] ?]]; try tauto.
      split; [|done]. right. split; [done|]. lia. }
    apply Hgen. intros x.
    set (floor := ara_high_water s - HISTORY_LEN).
    set (new_floor := new_hw - HISTORY_LEN).
    assert (x ∈ {[pid]} ∪ ara_seen s -> floor <= x) as Hfl.
    { rewrite elem_of_union, elem_of_singleton, (inv_seen _ _ HI). unfold floor.
      intros [->|[_ ?]]; lia. }
    case_bool_decide as H1; [case_bool_decide as H2|].
    + rewrite elem_of_filter. unfold new_floor. split; intros [??]; split; try done; lia.
    + rewrite elem_of_remove_range. unfold new_floor in *. split; intros [Ha Hb']; split; try done; specialize (Hfl Ha); lia.
    + split; [|tauto]. intros Ha. split; [done|]. specialize (Hfl Ha). unfold floor, new_floor in *.
      assert (new_hw - HISTORY_LEN = ara_high_water s - HISTORY_LEN) by (unfold new_hw in *; lia). lia.
Qed.

Lemma on_pid_received_false s acc pid :
  Inv s acc -> (pid ∈ acc \/ pid + HISTORY_LEN < ara_high_water s) ->
  on_pid_received s pid = (false, s).
Proof.
  intros HI H. unfold on_pid_received.
  case_bool_decide as H1; [done|].
  rewrite bool_decide_eq_true_2; [done|].
  rewrite (inv_seen _ _ HI). destruct H as [H|H]; [split; [done|]; lia|lia].
Qed.

Lemma window_iff s acc pid :
  Inv s acc ->
  (pid ∉ acc /\ ara_high_water s <= pid + HISTORY_LEN) <-> fresh_in_window acc pid.
Proof.
  intros HI. unfold fresh_in_window. split; intros [H1 H2]; split; try done.
  - intros q Hq. pose proof (inv_hw_ub _ _ HI _ Hq) as H3. rewrite ?sat_succ_eq, ?HIST_eq in *. lia.
  - destruct (inv_hw_in _ _ HI) as [[_ ->]|(q & Hq & ->)]; [lia|].
    specialize (H2 _ Hq). rewrite ?sat_succ_eq, ?HIST_eq in *. lia.
Qed.

Lemma on_pid_received_spec s acc pid :
  Inv s acc -> pid < 2 ^ 64 ->
  exists b s', on_pid_received s pid = (b, s') /\
    (b = true <-> fresh_in_window acc pid) /\
    Inv s' (if b then acc ++ [pid] else acc) /\ (b = false -> s' = s) /\
    ara_counter_out s' = ara_counter_out s.
Proof.
  intros HI Hlt.
  destruct (decide (pid ∈ acc \/ pid + HISTORY_LEN < ara_high_water s)) as [Hd|Hd].
  - exists false, s. split; [by eapply on_pid_received_false|].
    split; [|done]. split; [done|]. rewrite <- (window_iff s acc pid HI). intros [??]. destruct Hd; [done|lia].
  - destruct (on_pid_received_true s acc pid HI) as (s' & E & HI' & Hc).
    + tauto.
    + destruct (decide (ara_high_water s <= pid + HISTORY_LEN)); [done|]. exfalso. apply Hd. right. lia.
    + done.
    + exists true, s'. split; [done|]. split; [|done]. split; [|done].
      intros _. rewrite <- (window_iff s acc pid HI). split; [tauto|]. destruct (decide (ara_high_water s <= pid + HISTORY_LEN)); [done|]. exfalso. apply Hd. right. lia.
Qed.

(** Lifting to histories. *)
Lemma accepted_acc_app acc h1 h2 :
  accepted_acc acc (h1 ++ h2) = accepted_acc (accepted_acc acc h1) h2.
Proof.
  revert acc; induction h1 as [|[o x] h1 IH]; intros acc; [done|].
  destruct o, x as [[]| |]; cbn [app accepted_acc]; apply IH.
Qed.

Lemma issued_acc_app acc h1 h2 :
  issued_acc acc (h1 ++ h2) = issued_acc (issued_acc acc h1) h2.
Proof.
  revert acc; induction h1 as [|[o x] h1 IH]; intros acc; [done|].
  destruct o, x as [[]| |]; cbn [app issued_acc]; apply IH.
Qed.

Lemma run_length s ops : length (run s ops).1 = length ops.
Proof.
  revert s; induction ops as [|o ops IH]; intros s; [done|].
  cbn [run]. destruct (step s o) as [x s1]. specialize (IH s1).
  destruct (run s1 ops) as [xs s2]. cbn in *. lia.
Qed.

Lemma run_app s ops1 ops2 :
  run s (ops1 ++ ops2) =
    ((run s ops1).1 ++ (run (run s ops1).2 ops2).1, (run (run s ops1).2 ops2).2).
Proof.
  revert s; induction ops1 as [|o ops1 IH]; intros s; cbn [app run].
  - destruct (run s ops2) eqn:E. cbn. rewrite E. reflexivity.
  - destruct (step s o) as [x s1]. rewrite IH. destruct (run s1 ops1) as [xs s2]. reflexivity.
Qed.

Lemma run_inv ops s acc :
  u64_ops ops -> Inv s acc ->
  Inv (run s ops).2 (accepted_acc acc (zip ops (run s ops).1)).
Proof.
  revert s acc; induction ops as [|o ops IH]; intros s acc Hops HI; [done|].
  inversion Hops as [|? ? Ho Hops']; subst.
  cbn [run]. destruct (step s o) as [x s1] eqn:E.
  specialize (IH s1). destruct (run s1 ops) as [xs s2] eqn:E2. cbn [fst snd zip zip_with] in *.
  destruct o as [pid| |]; cbn [step] in E.
  - destruct (on_pid_received_spec s acc pid HI Ho) as (b & s' & E1 & Hb & HI' & _ & _).
    rewrite E1 in E. injection E as <- <-. cbn [accepted_acc]. destruct b; by apply IH.
  - injection E as <- <-. cbn [accepted_acc]. apply IH; [done|].
    destruct HI; constructor; done.
  - injection E as <- <-. cbn [accepted_acc]. apply IH; [done|]. apply inv_init.
Qed.

Lemma zip_app_l {A B} (l1 l2 : list A) (k : list B) :
  (length l1 <= length k)%nat ->
  zip (l1 ++ l2) k = zip l1 (take (length l1) k) ++ zip l2 (drop (length l1) k).
Proof.
  revert k; induction l1 as [|a l1 IH]; intros k Hk; cbn in *; [done|].
  destruct k as [|b k]; cbn in *; [lia|]. f_equal. apply IH. lia.
Qed.

Lemma reachable_inv ops :
  u64_ops ops ->
  Inv (run ara_default ops).2 (accepted_since_reset (zip ops (run ara_default ops).1)).
Proof. intros H. apply run_inv; [done|apply inv_init]. Qed.

(** C01 *)
Lemma accepted_nodup ops :
  u64_ops ops ->
  NoDup (accepted_since_reset (zip ops (run ara_default ops).1)).
Proof. intros H. eapply inv_nodup, reachable_inv; done. Qed.

Lemma accepted_acc_incl acc h pid :
  pid ∈ acc -> (forall k, h !! k = None \/ exists e, h !! k = Some e /\ e.1 <> Reset) ->
  pid ∈ accepted_acc acc h.
Proof.
  revert acc; induction h as [|[o x] h IH]; intros acc Hin Hk; [done|].
  assert (o <> Reset) as Ho.
  { destruct (Hk 0%nat) as [Hn|(e & He & Hr)]; [done|]. cbn in He. injection He as <-. done. }
  assert (forall k, h !! k = None \/ exists e, h !! k = Some e /\ e.1 <> Reset) as Hk'.
  { intros k. apply (Hk (S k)). }
  destruct o, x as [[]| |]; cbn [accepted_acc]; try done; apply IH; set_solver.
Qed.

(** C02 *)
Lemma verdict_exact ops pid :
  u64_ops ops -> pid < 2 ^ 64 ->
  let h := zip ops (run ara_default ops).1 in
  let '(answer, s') := step (run ara_default ops).2 (Recv pid) in
  (answer = OVerdict true /\ fresh_in_window (accepted_since_reset h) pid) \/
  (answer = OVerdict false /\ ~ fresh_in_window (accepted_since_reset h) pid /\
     s' = (run ara_default ops).2).
Proof.
  intros Hops Hp h.
  pose proof (reachable_inv ops Hops) as HI.
  destruct (on_pid_received_spec _ _ pid HI Hp) as (b & s' & E & Hb & _ & Hs & _).
  cbn [step]. rewrite E. destruct b.
  - left. split; [done|]. by apply Hb.
  - right. split; [done|]. split; [|by apply Hs]. intros Hf. apply Hb in Hf. done.
Qed.

(** C03 *)
Lemma seen_incl_accepted ops q :
  u64_ops ops ->
  q ∈ ara_seen (run ara_default ops).2 ->
  q ∈ accepted_since_reset (zip ops (run ara_default ops).1).
Proof. intros H Hq. apply (inv_seen _ _ (reachable_inv ops H)) in Hq. tauto. Qed.

Fixpoint nrange (lo : N) (len : nat) : list N :=
  match len with O => [] | S n => lo :: nrange (lo + 1) n end.

Lemma elem_of_nrange lo len x : x ∈ nrange lo len <-> lo <= x < lo + N.of_nat len.
Proof.
  revert lo; induction len as [|len IH]; intros lo; cbn [nrange].
  - rewrite elem_of_nil. lia.
  - rewrite elem_of_cons, IH. lia.
Qed.
Lemma nrange_length lo len : length (nrange lo len) = len.
Proof. revert lo; induction len as [|len IH]; intros lo; cbn; auto. Qed.

Lemma size_range_le (X : gset N) lo (len : nat) :
  (forall x, x ∈ X -> lo <= x < lo + N.of_nat len) -> (size X <= len)%nat.
Proof.
  intros H.
  rewrite <- (nrange_length lo len) at 1.
  transitivity (size (list_to_set (nrange lo len) : gset N)).
  - apply subseteq_size. intros x Hx. apply elem_of_list_to_set, elem_of_nrange. auto.
  - clear H. induction (nrange lo len) as [|a l IH]; cbn; [by rewrite size_empty|].
    rewrite size_union_alt. rewrite size_singleton.
    transitivity (1 + size (list_to_set l : gset N))%nat; [|lia].
    apply Nat.add_le_mono_l. apply subseteq_size. set_solver.
Qed.

Lemma seen_bounded ops :
  u64_ops ops ->
  let s := (run ara_default ops).2 in
  let acc := accepted_since_reset (zip ops (run ara_default ops).1) in
  (size (ara_seen s) <= 1025)%nat /\ (2 ^ 64 - 1 ∉ acc -> (size (ara_seen s) <= 1024)%nat).
Proof.
  intros Hops s acc. pose proof (reachable_inv ops Hops) as HI. fold s acc in HI.
  assert (forall x, x ∈ ara_seen s -> ara_high_water s - 1024 <= x < ara_high_water s - 1024 + N.of_nat 1025) as H1.
  { intros x Hx. apply (inv_seen _ _ HI) in Hx as [Hx Hw].
    pose proof (inv_hw_ub _ _ HI _ Hx) as Hu. pose proof (inv_lt _ _ HI _ Hx).
    rewrite ?sat_succ_eq, ?HIST_eq in *. lia. }
  split.
  - eapply size_range_le, H1.
  - intros Hn. apply (size_range_le _ (ara_high_water s - 1024)).
    intros x Hx. specialize (H1 x Hx). apply (inv_seen _ _ HI) in Hx as [Hx Hw].
    pose proof (inv_hw_ub _ _ HI _ Hx) as Hu. pose proof (inv_lt _ _ HI _ Hx).
    assert (x <> 2 ^ 64 - 1) by (intros ->; done).
    rewrite ?sat_succ_eq, ?HIST_eq in *. lia.
Qed.

(** Outgoing IDs. *)
Lemma issued_inv ops s iss :
  iss = (fun k => N.of_nat k mod 2 ^ 64) <$> seq 0 (length iss) ->
  ara_counter_out s = N.of_nat (length iss) mod 2 ^ 64 ->
  let iss' := issued_acc iss (zip ops (run s ops).1) in
  iss' = (fun k => N.of_nat k mod 2 ^ 64) <$> seq 0 (length iss') /\
  ara_counter_out (run s ops).2 = N.of_nat (length iss') mod 2 ^ 64.
Proof.
  revert s iss; induction ops as [|o ops IH]; intros s iss Hi Hc; [done|].
  cbn [run]. destruct (step s o) as [x s1] eqn:E.
  specialize (IH s1). destruct (run s1 ops) as [xs s2] eqn:E2. cbn [fst snd zip zip_with] in *.
  destruct o as [pid| |]; cbn [step] in E.
  - destruct (on_pid_received s pid) as [b s'] eqn:E1. injection E as <- <-.
    cbn [issued_acc]. apply IH; [done|]. rewrite <- Hc.
    unfold on_pid_received in E1. repeat case_bool_decide; injection E1 as <- <-; done.
  - injection E as <- <-. cbn [issued_acc]. apply IH.
    + rewrite app_length. cbn [length]. rewrite Nat.add_1_r, seq_S, fmap_app. cbn [fmap list_fmap].
      rewrite <- Hi. by rewrite Hc.
    + cbn [ara_counter_out]. rewrite app_length, Hc. cbn [length].
      rewrite N.add_mod_idemp_l by lia. f_equal. lia.
  - injection E as <- <-. cbn [issued_acc]. apply IH; done.
Qed.

Lemma issued_distinct ops :
  let iss := issued_since_reset (zip ops (run ara_default ops).1) in
  N.of_nat (length iss) <= 2 ^ 64 -> NoDup iss.
Proof.
  intros iss Hl.
  destruct (issued_inv ops ara_default [] eq_refl eq_refl) as [Hi _].
  fold (issued_since_reset (zip ops (run ara_default ops).1)) in Hi. fold iss in Hi. rewrite Hi.
  apply NoDup_fmap_2_strong; [|apply NoDup_seq].
  intros a b Ha Hb. rewrite !elem_of_seq in *.
  rewrite !N.mod_small by lia. lia.
Qed.
