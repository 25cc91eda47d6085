(** The properties of the network read-write lock. *)
From stdpp Require Import prelude.
From Verif Require Import RwLock_Model RwLock_Spec RwLock_Abs RwLock_Proofs.
Local Open Scope Z_scope.

(** a call that gets as far as its request *)
Definition ask (s : bool) (k : kind) (t : Z) : list revent := [Call s k; Enqueue s 0; Acquire s t].
(** [n] packets are read *)
Definition reads (s : bool) (n : nat) : list revent := replicate n (Deliver s).
Definition after (es : list revent) : rworld := (rrun (rworld_init 5) es).1.
Definition seen (es : list revent) : list robs := (rrun (rworld_init 5) es).2.

Lemma no_panic_check os : forallb (λ o, match o with Panics _ => false | Granted _ _ _ => true end) os = true → no_panic os.
Proof. intros H s Hi. rewrite forallb_forall in H. specialize (H _ (proj1 (elem_of_list_In _ _) Hi)). done. Qed.

Definition mixedb (w : rworld) (e : revent) : bool :=
  match e with
  | Deliver s =>
      match r_mode (rw_node w s), rw_out w (negb s) with
      | Trying _ cur t, TryAcquire t' k :: _ => bool_decide (k ≠ cur) && negb (local_wins s t t')
      | _, _ => false
      end
  | _ => false
  end.
Fixpoint unmixedb (w : rworld) (es : list revent) : bool :=
  match es with [] => true | e :: rest => negb (mixedb w e) && unmixedb (rstep w e).1 rest end.
Lemma unmixed_check es : ∀ w, unmixedb w es = true → unmixed w es.
Proof.
  induction es as [|e es IH]; intros w; [done|]. cbn [unmixedb unmixed]. intros [H1 H2]%andb_prop. split; [|by apply IH].
  intros (s & want & cur & t & t' & k & rest & -> & Em & Eo & Hne & Hw). revert H1. unfold mixedb. rewrite Em, Eo, Hw.
  by rewrite bool_decide_eq_true_2.
Qed.

(** C105: a write guard is the only guard. *)
(** What is missing: no request may lose to a request of the other kind made at the same time. *)
Theorem C105_partial v es : unmixed (rworld_init v) es → exclusive (rrun (rworld_init v) es).1.
Proof. intros H. by apply (unmixed_run_from 12000 v es reach_done H). Qed.
(** That is so if all requests are of one kind. *)
Theorem C105_one_kind k v es : Forall (asks k) es → exclusive (rrun (rworld_init v) es).1.
Proof. intros H. apply C105_partial. by apply (only_unmixed k); [apply only_init|]. Qed.

(** The request of a writer loses to that of a reader; the writer is left with a read lock,
    inside a write guard.  That guard leaves its lock in the store, so that after it has
    been dropped the node still reads there, while the other node has been given the lock
    to write. *)
Definition two_guards : list revent :=
  ask true KRead 1 ++ ask false KWrite 2 ++ reads true 1 ++ [DropRead true] ++ reads false 1 ++ reads true 1 ++ reads false 2 ++ reads true 1
  ++ ask true KWrite 3 ++ reads false 2 ++ reads true 1 ++ [Call false KRead; DropWrite false] ++ reads true 1.
Theorem C105_refuted :
  ∃ v es s, one_clock 0 es ∧ no_panic (rrun (rworld_init v) es).2 ∧
    r_mode (rw_node (rrun (rworld_init v) es).1 s) = Writer ∧ reading (rrun (rworld_init v) es).1 (negb s).
Proof.
  exists 5%N, two_guards, true. split; [cbn; lia|]. split; [|split; [by vm_compute|left; vm_compute; lia]].
  apply no_panic_check. by vm_compute.
Qed.
(** If the clocks of the nodes differ, both may even write. *)
Definition two_writers : list revent :=
  ask true KWrite 1 ++ ask false KRead 11 ++ reads true 1 ++ [DropWrite true] ++ reads false 1 ++ reads true 1 ++ reads false 2 ++ reads true 1
  ++ ask true KRead 2 ++ reads false 1 ++ reads true 1 ++ [DropRead true] ++ reads false 3 ++ reads true 1
  ++ ask true KRead 3 ++ reads false 1 ++ reads true 1 ++ [DropRead true; DropRead false] ++ reads true 1 ++ reads false 1
  ++ ask false KRead 12 ++ reads true 1 ++ reads false 2 ++ reads true 2 ++ [DropRead false] ++ reads true 1 ++ ask true KWrite 4 ++ reads false 1
  ++ ask false KWrite 13 ++ reads true 1 ++ reads false 1.
Theorem C105_two_writers_refuted :
  ∃ v es, clocks (λ _, 0) es ∧ no_panic (rrun (rworld_init v) es).2 ∧ ∀ s, r_mode (rw_node (rrun (rworld_init v) es).1 s) = Writer.
Proof.
  exists 5%N, two_writers. split; [cbn; unfold rupd; cbn; lia|]. split; [|intros []; by vm_compute].
  apply no_panic_check. by vm_compute.
Qed.
(** Example: a write, then a read at each end at the same time, then a write at the other end. *)
Definition take_turns : list revent :=
  [BgTry false] ++ ask true KWrite 1 ++ reads false 1 ++ reads true 1 ++ [Mutate true 7; DropWrite true] ++ reads false 3 ++ reads true 1
  ++ ask true KRead 2 ++ ask false KRead 3 ++ reads true 1 ++ reads false 1.
Example C105_example :
  unmixed (rworld_init 5) take_turns ∧ seen take_turns = [Granted true KWrite 5; Granted true KRead 7; Granted false KRead 7] ∧
  reading (after take_turns) true ∧ reading (after take_turns) false.
Proof.
  split; [apply unmixed_check; by vm_compute|].
  split; [by vm_compute|]. split; left; vm_compute; lia.
Qed.

(** C106: a guard exposes the value last written. *)
Theorem C106_partial v es e s k x :
  unmixed (rworld_init v) (es ++ [e]) → (rstep (rrun (rworld_init v) es).1 e).2 = Some (Granted s k x) →
  x = last_written (rworld_init v) es v.
Proof.
  intros Hu H. destruct (rstep (rrun (rworld_init v) es).1 e) as [w' o] eqn:E. cbn [snd] in H. subst o.
  destruct (step_granted _ _ _ _ _ _ E) as (-> & Hg & Hl).
  destruct (unmixed_run_from 12000 v (es ++ [e]) reach_done Hu) as (_ & H & _).
  rewrite rrun_app in H. cbn [rrun fst] in H. rewrite E in H. cbn [fst] in H. rewrite (H s Hg).
  rewrite last_written_app. cbn [last_written]. change (now_last (rrun (rworld_init v) es).1 e (last_written (rworld_init v) es v) = last_written (rworld_init v) es v).
  by rewrite Hl.
Qed.
Theorem C106_held_partial v es s :
  unmixed (rworld_init v) es → reading (rrun (rworld_init v) es).1 s ∨ writing (rrun (rworld_init v) es).1 s →
  r_value (rw_node (rrun (rworld_init v) es).1 s) = last_written (rworld_init v) es v.
Proof. intros H. by apply (unmixed_run_from 12000 v es reach_done H). Qed.
Theorem C106_refuted :
  ∃ v es e s k x, one_clock 0 (es ++ [e]) ∧ (rstep (rrun (rworld_init v) es).1 e).2 = Some (Granted s k x) ∧
    x ≠ last_written (rworld_init v) es v.
Proof.
  exists 5%N, (two_guards ++ [Mutate true 7]), (Call false KRead), false, KRead, 5%N.
  split; [cbn; lia|]. split; [by vm_compute|]. vm_compute. done.
Qed.
Example C106_example : last_written (rworld_init 5) take_turns 5 = 7%N ∧ r_value (rw_node (after take_turns) false) = 7%N.
Proof. by vm_compute. Qed.

(** C107: once all guards are dropped, the lock can be taken again. *)
(** Two reads overlap; the one that was given at once, because the node had yielded a read
    lock, ends last.  Its drop code waits for an answer that the other node does not give. *)
Definition overlap : list revent :=
  [BgTry false] ++ ask true KRead 1 ++ reads false 1 ++ reads true 1 ++ [Call false KRead] ++ reads false 2 ++ [DropRead true] ++ reads false 1
  ++ reads true 1 ++ [BgTry true] ++ [DropRead false] ++ reads true 1.
Definition overlap_dead : astate :=
  mk_astate true (mk_anode (ATrying KWrite) false 0 true) (mk_anode (ADropping KRead false) false 0 true) [ATry true KWrite] [].
Theorem C107_refuted :
  ∃ v es s, one_clock 0 es ∧ unmixed (rworld_init v) es ∧ idle (rrun (rworld_init v) es).1 ∧ waiting (rrun (rworld_init v) es).1 s ∧
    ∀ es', starved (rrun (rworld_init v) es).1 es'.
Proof.
  exists 5%N, (overlap ++ ask true KWrite 2), true. split; [cbn; lia|]. split; [apply unmixed_check; by vm_compute|].
  split. { intros []; (split; [intros [H|H]|intros [H|H]]); revert H; vm_compute; first [lia|discriminate]. }
  split. { right. right. left. exists KWrite, KWrite, 2. by vm_compute. }
  intros es'. apply (starved_from _ 5%N (λ s, if s then 2 else 5) overlap_dead 1000); [vm_compute; reflexivity|].
  split; [done| |].
  - intros []; (split; [vm_compute; try done|by vm_compute..]).
  - intros []; vm_compute; repeat constructor.
Qed.
(** In the same way, but the other node asks to write before that last guard is dropped: it
    is given the lock, what it writes does not arrive, and the lock is dead. *)
Definition lost_write : list revent :=
  [BgTry false] ++ ask true KRead 1 ++ reads false 1 ++ reads true 1 ++ [Call false KRead] ++ reads false 2 ++ [DropRead true] ++ reads false 1
  ++ reads true 1 ++ ask true KWrite 2 ++ [DropRead false] ++ reads true 1 ++ [Mutate true 7] ++ reads false 3 ++ [DropWrite true]
  ++ reads true 1 ++ reads false 1.
Definition lost_dead : astate :=
  mk_astate true (mk_anode (ADropping KWrite false) false 0 true) (mk_anode (ADropYield KRead) false 0 false) [] [].
Theorem C107_lost_write_refuted :
  ∃ v es s, one_clock 0 es ∧ idle (rrun (rworld_init v) es).1 ∧ (∀ t, rw_out (rrun (rworld_init v) es).1 t = []) ∧
    r_value (rw_node (rrun (rworld_init v) es).1 s) ≠ last_written (rworld_init v) es v ∧
    ∀ es', starved (rrun (rworld_init v) es).1 es'.
Proof.
  exists 5%N, lost_write, false. split; [cbn; lia|].
  split. { intros []; (split; [intros [H|H]|intros [H|H]]); revert H; vm_compute; first [lia|discriminate]. }
  split; [intros []; by vm_compute|]. split; [by vm_compute|].
  intros es'. apply (starved_from _ 7%N (λ s, if s then 2 else 5) lost_dead 1000); [vm_compute; reflexivity|].
  split; [done| |].
  - intros []; (split; [vm_compute; try done|by vm_compute..]).
  - intros []; vm_compute; repeat constructor.
Qed.
(** What holds: a request on its own, the other node listening, is granted. *)
Theorem C107_partial w s t k q :
  r_mode (rw_node w s) = Free → r_queued (rw_node w s) = k :: q → r_mode (rw_node w (negb s)) = Bg → (∀ u, rw_out w u = []) →
  (rrun w [Acquire s t; Deliver (negb s); Deliver s]).2 =
    [Granted s k match k with KRead => r_value (rw_node w s) | KWrite => r_value (rw_node w (negb s)) end].
Proof.
  intros E1 E2 E3 E4. destruct w as [nd out]. cbn [rw_node rw_out] in *.
  destruct (nd s) as [m1 st1 r1 v1 b1 g1 se1 q1] eqn:Ns, (nd (negb s)) as [m2 st2 r2 v2 b2 g2 se2 q2] eqn:Nn.
  cbn [r_mode r_queued r_value] in *. subst.
  destruct s, k; cbn in *; (rewrite Ns; cbn; rewrite ?E4, ?Nn; cbn; rewrite ?E4, ?Nn; cbn; rewrite ?E4; done).
Qed.
Example C107_example :
  (rrun (after [BgTry false; Call true KWrite; Enqueue true 0]) [Acquire true 3; Deliver false; Deliver true]).2 = [Granted true KWrite 5].
Proof. by vm_compute. Qed.

(** C108: the guards handed out can be used and dropped. *)
Theorem C108_partial v es : unmixed (rworld_init v) es → no_panic (rrun (rworld_init v) es).2.
Proof. intros H. by apply (unmixed_run_from 12000 v es reach_done H). Qed.
(** A reader loses to a writer and keeps the write lock; dropping the read guard it is given in the end panics. *)
Definition odd_read : list revent :=
  ask false KWrite 1 ++ ask true KRead 2 ++ reads true 1 ++ reads false 1 ++ reads true 1 ++ [DropWrite false] ++ reads true 1 ++ reads false 2
  ++ ask false KRead 3 ++ reads true 1 ++ [DropRead true].
(** A writer loses to a reader and keeps the read lock; writing through the guard it is given in the end panics. *)
Definition odd_write : list revent :=
  ask false KRead 1 ++ ask true KWrite 2 ++ reads true 1 ++ reads false 1 ++ reads true 1 ++ [DropRead false] ++ reads true 1 ++ reads false 2
  ++ ask false KWrite 3 ++ reads true 2 ++ [Mutate true 9].
Theorem C108_refuted :
  ∃ v es es' s, one_clock 0 es ∧ one_clock 0 es' ∧
    last es = Some (DropRead s) ∧ last (rrun (rworld_init v) es).2 = Some (Panics s) ∧
    last es' = Some (Mutate s 9) ∧ last (rrun (rworld_init v) es').2 = Some (Panics s).
Proof. exists 5%N, odd_read, odd_write, true. split; [cbn; lia|]. split; [cbn; lia|]. by vm_compute. Qed.
Example C108_example : no_panic (seen take_turns) ∧ length (seen take_turns) = 3%nat.
Proof. split; [apply C108_partial, C105_example|by vm_compute]. Qed.

(** C109: the node that lost a conflict is served once the winner has released the lock. *)
Definition beaten : list revent :=
  ask true KWrite 1 ++ ask false KWrite 2 ++ reads true 1 ++ reads false 1 ++ [DropWrite true] ++ reads false 2 ++ reads true 2 ++ reads false 1.
Theorem C109_refuted :
  ∃ v es s, one_clock 0 es ∧ Forall (asks KWrite) es ∧ idle (rrun (rworld_init v) es).1 ∧ waiting (rrun (rworld_init v) es).1 s ∧
    ∀ es', Forall quiet es' → starved (rrun (rworld_init v) es).1 es'.
Proof.
  exists 5%N, beaten, false. split; [cbn; lia|]. split; [by repeat constructor|].
  split. { intros []; (split; [intros [H|H]|intros [H|H]]); revert H; vm_compute; first [lia|discriminate]. }
  split. { right. right. left. exists KWrite, KWrite, 2. by vm_compute. }
  intros es' Hf s k x. rewrite stuck_run; [intros H; by apply elem_of_nil in H| |done].
  split; [intros []; by vm_compute|]. split; [left; by vm_compute|]. exists KWrite, KWrite, 2. by vm_compute.
Qed.
(** It is served when the other node asks again, if that request carries a later time. *)
Theorem C109_partial w s want cur t t' k rest :
  r_mode (rw_node w s) = Trying want cur t → rw_out w (negb s) = TryAcquire t' k :: rest → t < t' →
  (rstep w (Deliver s)).2 = Some (Granted s want (r_value (rw_node w s))).
Proof.
  intros Em Eo Ht. cbn [rstep]. rewrite Eo. unfold recv. rewrite Em.
  assert (local_wins s t t' = true) as ->. { unfold local_wins. destruct (t' =? t) eqn:E; lia. }
  destruct k, cur, want; done.
Qed.
Example C109_example : seen (beaten ++ ask true KWrite 3 ++ reads false 1) = [Granted true KWrite 5; Granted false KWrite 5].
Proof. by vm_compute. Qed.

Print Assumptions C105_partial. Print Assumptions C105_one_kind. Print Assumptions C105_refuted. Print Assumptions C105_two_writers_refuted.
Print Assumptions C106_partial. Print Assumptions C106_held_partial. Print Assumptions C106_refuted.
Print Assumptions C107_refuted. Print Assumptions C107_lost_write_refuted. Print Assumptions C107_partial.
Print Assumptions C108_partial. Print Assumptions C108_refuted. Print Assumptions C109_refuted. Print Assumptions C109_partial.
