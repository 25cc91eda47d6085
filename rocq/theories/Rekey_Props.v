(** C11: concurrent re-keys; C64: re-keys after a timeout; C65: every re-key round ends. *)
From Coq Require Import ZifyBool ZifyNat ZifyN.
From stdpp Require Import prelude gmap.
From Verif Require Import Rekey_Model Rekey_Spec Rekey_Proofs.
Local Open Scope N_scope.

Section props.
Context (MAX : nat) (HMAX : (3 ≤ MAX)%nat).

(** For every interleaving of triggers at both ends and in-order deliveries: *)

(** no round fails, *)
Theorem C11_no_round_fails r es w os :
  start_ring MAX r → Forall prompt es → rrun MAX (world_init r) es = (w, os) → ∀ s, (s, Failed) ∉ os.
Proof using HMAX. intros Hr Hp Hrun. by destruct (inv_run MAX HMAX es _ _ _ (inv_init MAX HMAX r Hr) Hp Hrun). Qed.

(** what either end encrypts with is held by the other, as the same key, *)
Theorem C11_always_readable r es w os :
  start_ring MAX r → Forall prompt es → rrun MAX (world_init r) es = (w, os) → readable w.
Proof using HMAX.
  intros Hr Hp Hrun. destruct (inv_run MAX HMAX es _ _ _ (inv_init MAX HMAX r Hr) Hp Hrun) as [Hi _].
  destruct (inv_shape MAX HMAX _ _ Hi) as (x & _ & H & _). intros s. unfold key_of, version.
  destruct (H s) as (k & H1 & H2). exists k. destruct (bool_either s x) as [-> | ->]; [done|]. by rewrite negb_involutive.
Qed.

(** no version has different keys at the two ends, *)
Theorem C11_never_two_keys r es w os :
  start_ring MAX r → Forall prompt es → rrun MAX (world_init r) es = (w, os) → consistent w.
Proof using HMAX.
  intros Hr Hp Hrun. destruct (inv_run MAX HMAX es _ _ _ (inv_init MAX HMAX r Hr) Hp Hrun) as [Hi _].
  destruct (inv_shape MAX HMAX _ _ Hi) as (x & H & _). intros v k1 k2 H1 H2. unfold key_of in *. destruct x; [by eapply H|].
  symmetry. by eapply H.
Qed.

(** the versions in use differ by one at most, *)
Theorem C11_versions_close r es w os :
  start_ring MAX r → Forall prompt es → rrun MAX (world_init r) es = (w, os) →
  version w true ≤ version w false + 1 ∧ version w false ≤ version w true + 1.
Proof using HMAX.
  intros Hr Hp Hrun. destruct (inv_run MAX HMAX es _ _ _ (inv_init MAX HMAX r Hr) Hp Hrun) as [Hi _].
  destruct (inv_shape MAX HMAX _ _ Hi) as (x & _ & _ & H). unfold version. destruct x; cbn [negb] in H; lia.
Qed.

(** they are equal, and both ends hold the same keys, when neither is in the middle of a round, *)
Theorem C11_idle_agree r es w os :
  start_ring MAX r → Forall prompt es → rrun MAX (world_init r) es = (w, os) → (∀ s, idle w s) →
  version w true = version w false ∧ ∀ v, key_of w true v = key_of w false v.
Proof using HMAX.
  intros Hr Hp Hrun Hid. destruct (inv_run MAX HMAX es _ _ _ (inv_init MAX HMAX r Hr) Hp Hrun) as [Hi _].
  destruct (inv_idle MAX _ _ Hi Hid) as (H1 & H2 & _). split; [done|]. intros v. unfold key_of. by rewrite H2.
Qed.

(** and a version moves exactly when a round completes, by one. *)
Theorem C11_completion_advances r es e w w' os ob :
  start_ring MAX r → Forall prompt es → prompt e → rrun MAX (world_init r) es = (w, os) → rstep MAX w e = (w', ob) →
  ∀ s, version w' s = version w s + (if bool_decide (ob = Some (s, Done)) then 1 else 0).
Proof using HMAX.
  intros Hr Hp He Hrun Hst. destruct (inv_run MAX HMAX es _ _ _ (inv_init MAX HMAX r Hr) Hp Hrun) as [Hi _].
  by destruct (inv_step MAX HMAX _ _ _ _ Hi He Hst) as (_ & _ & H).
Qed.

(** The key an end holds for a version is never replaced by another, whatever times out. *)
Theorem C11_key_never_replaced r es1 es2 s v k1 k2 :
  key_of (rrun MAX (world_init r) es1).1 s v = Some k1 →
  key_of (rrun MAX (rrun MAX (world_init r) es1).1 es2).1 s v = Some k2 → k1 = k2.
Proof using HMAX. intros H1 H2. pose proof (run_ring_le MAX HMAX es2 (rrun MAX (world_init r) es1).1 s) as (_ & _ & H). by eapply H. Qed.

(** From a settled state, a re-key that is left alone completes at both ends and moves both to the next version. *)
Theorem C65_alone_partial r es w os s :
  start_ring MAX r → Forall prompt es → rrun MAX (world_init r) es = (w, os) → settled w →
  ∃ w', rrun MAX w (full_round s) = (w', [(negb s, Continue); (s, Continue); (negb s, Done); (s, Done)]) ∧
    settled w' ∧ ∀ t, version w' t = version w s + 1.
Proof using HMAX.
  intros Hr Hp Hrun Hset. destruct (inv_run MAX HMAX es _ _ _ (inv_init MAX HMAX r Hr) Hp Hrun) as [Hi _].
  by apply (alone MAX HMAX).
Qed.

(** C64, what holds: whatever timed out before, from a state in which both ends are at rest with the same keys and use the
    newest of them, everything said above holds until the next timeout.  Missing: states with keys of unfinished rounds. *)
Theorem C64_partial r es1 es2 w os :
  restored MAX (rrun MAX (world_init r) es1).1 → Forall prompt es2 →
  rrun MAX (rrun MAX (world_init r) es1).1 es2 = (w, os) →
  (∀ s, (s, Failed) ∉ os) ∧ readable w ∧ consistent w ∧
  ((∀ s, idle w s) → version w true = version w false ∧ ∀ v, key_of w true v = key_of w false v).
Proof using HMAX.
  intros Hre Hp Hrun.
  assert (Hro : rooted (rrun MAX (world_init r) es1).1) by (apply rooted_run; by intros s).
  pose proof (restored_inv MAX HMAX _ Hro Hre) as Hi0.
  destruct (inv_run MAX HMAX es2 _ _ _ Hi0 Hp Hrun) as [Hi Hf]. split; [done|].
  destruct (inv_shape MAX HMAX _ _ Hi) as (x & Hc & H & _). split_and!.
  - intros s. unfold key_of, version.
    destruct (H s) as (k & H1 & H2). exists k. destruct (bool_either s x) as [-> | ->]; [done|]. by rewrite negb_involutive.
  - intros v k1 k2 H1 H2. unfold key_of in *. destruct x; [by eapply Hc|]. symmetry. by eapply Hc.
  - intros Hid. destruct (inv_idle MAX _ _ Hi Hid) as (H1 & H2 & _). split; [done|]. intros v. unfold key_of. by rewrite H2.
Qed.
End props.

(** ** Timeouts: after a round that timed out, both ends can complete a later one and use different keys *)
Definition ring0 : keyring := mk_keyring 0 [(0, 0)].
Definition trig (s : bool) : list revent := [Start s false; Construct s; ReadLatest s; Declare s; Send s].
Definition desync : list revent :=
  trig true ++ trig false ++
  [Deliver true;                    (* the initiator answers the other's *)
   Deliver false; Timeout false] ++ (* the other end waits for that answer, in vain *)
  trig false ++
  [Deliver false;                   (* the answer, to a constructor that has been replaced *)
   Deliver true; Deliver false;     (* the initiator answers the second; the other has no constructor left *)
   Timeout true; Timeout false] ++
  trig false ++ [Deliver true; Deliver false; Deliver true; Deliver false].

Lemma desync_quiet s : idle (rrun 6 (world_init ring0) desync).1 s ∧ w_out (rrun 6 (world_init ring0) desync).1 s = [].
Proof. destruct s; by vm_compute. Qed.
Lemma desync_keys :
  version (rrun 6 (world_init ring0) desync).1 true = version (rrun 6 (world_init ring0) desync).1 false ∧
  key_of (rrun 6 (world_init ring0) desync).1 true (version (rrun 6 (world_init ring0) desync).1 true) ≠
  key_of (rrun 6 (world_init ring0) desync).1 false (version (rrun 6 (world_init ring0) desync).1 false).
Proof. by vm_compute. Qed.
Theorem C64_refuted :
  ¬ ∀ MAX r es w os, (3 ≤ MAX)%nat → start_ring MAX r → rrun MAX (world_init r) es = (w, os) →
      (∀ s, idle w s ∧ w_out w s = []) → version w true = version w false →
      key_of w true (version w true) = key_of w false (version w false).
Proof.
  intros H. pose proof desync_quiet as Hq. pose proof desync_keys as (Hv & Hk).
  apply Hk. apply (H 6%nat ring0 desync _ _ ltac:(lia) ltac:(unfold start_ring; cbn; lia) (surjective_pairing _) Hq Hv).
Qed.
(** the last round ended well at both ends *)
Example C64_last_round_done :
  last (rrun 6 (world_init ring0) desync).2 = Some (false, Done) ∧
  (rrun 6 (world_init ring0) desync).2 !! 10%nat = Some (true, Done).
Proof. by vm_compute. Qed.

(** Both ends start a re-key; the non-initiator waits for the answer to its own in vain, as it seems, and then it comes. *)
Definition retry : list revent :=
  trig true ++ trig false ++ [Deliver false; Timeout false; Deliver true; Deliver false; Deliver true; Deliver false].
Lemma retry_restored : restored 6 (rrun 6 (world_init ring0) retry).1.
Proof.
  split_and!; [|by vm_compute|unfold start_ring; vm_compute; lia|by intros []; vm_compute].
  intros []; split_and!; by vm_compute.
Qed.
Example C64_ex :
  (rrun 6 (world_init ring0) retry).2 =
    [(false, Continue); (false, Failed); (true, Continue); (false, Continue); (true, Done); (false, Done)] ∧
  (rrun 6 (rrun 6 (world_init ring0) retry).1 (full_round true)).2 = [(false, Continue); (true, Continue); (false, Done); (true, Done)].
Proof. by vm_compute. Qed.

(** ** A round need not end by itself *)
Definition zombie : list revent :=
  [Start false false] ++                                         (* the metadata is for version 0 *)
  trig true ++ [Deliver false; Deliver true; Deliver false; Deliver true] ++   (* a whole round: version 1 *)
  [Construct false; ReadLatest false; Declare false; Send false; Deliver true] ++ (* sent, and skipped by the initiator *)
  trig true ++ [Deliver false].                                  (* the initiator's own is left alone *)
Lemma zombie_stuck : stuck (rrun 6 (world_init ring0) zombie).1.
Proof. split; [intros []; by vm_compute|]. intros []; by vm_compute. Qed.
Lemma zombie_leader : n_role (w_node (rrun 6 (world_init ring0) zombie).1 false) ≠ Idle.
Proof. by vm_compute. Qed.
Theorem C65_refuted :
  ¬ ∀ MAX r es w os, (3 ≤ MAX)%nat → start_ring MAX r → Forall prompt es → rrun MAX (world_init r) es = (w, os) →
      ∃ es' : list revent, Forall prompt es' ∧ ∀ s, idle (rrun MAX w es').1 s.
Proof.
  intros H.
  destruct (H 6%nat ring0 zombie _ _ ltac:(lia) ltac:(unfold start_ring; cbn; lia) ltac:(repeat constructor) (surjective_pairing _))
    as (es' & Hp & Hid).
  destruct (stuck_run 6 ltac:(lia) es' _ zombie_stuck Hp) as (Hn & _ & _).
  apply zombie_leader. rewrite <- Hn. apply Hid.
Qed.
Example C65_dead : dead 6 (rrun 6 (world_init ring0) zombie).1.
Proof.
  intros es s Hp. destruct (stuck_run 6 ltac:(lia) es _ zombie_stuck Hp) as (Hn & _ & _).
  unfold version. rewrite Hn. split; reflexivity.
Qed.

(** ** Examples: both ends start a re-key at once; the initiator answers, the other waits; the oldest key goes *)
Definition clash : list revent :=
  trig true ++ trig false ++ [Deliver false; Deliver true; Deliver false; Deliver true; Deliver false].
Definition obs (w : world) :=
  ((version w true, version w false), (kr_keys (n_ring (w_node w true)), kr_keys (n_ring (w_node w false)))).
Example clash_ok :
  obs (rrun 3 (world_init (mk_keyring 0 [(0, 0); (9, 9)])) clash).1 = ((2, 2), ([(9, 9); (2, 4)], [(9, 9); (2, 4)])) ∧
  (rrun 3 (world_init (mk_keyring 0 [(0, 0); (9, 9)])) clash).2 =
    [(false, Continue); (true, Continue); (false, Continue); (true, Done); (false, Done)].
Proof. by vm_compute. Qed.
Example clash_prompt : Forall prompt clash ∧ start_ring 3 (mk_keyring 0 [(0, 0); (9, 9)]).
Proof. split; [repeat constructor|unfold start_ring; cbn; lia]. Qed.
(** half way, the versions differ *)
Example clash_half :
  obs (rrun 3 (world_init ring0) (take 14 clash)).1 = ((1, 0), ([(0, 0); (2, 4)], [(0, 0); (2, 4)])).
Proof. by vm_compute. Qed.
Example alone_ok :
  obs (rrun 3 (world_init ring0) (full_round true ++ full_round false ++ full_round true)).1 =
    ((3, 3), ([(6, 7); (11, 12)], [(6, 7); (11, 12)])).
Proof. by vm_compute. Qed.

Print Assumptions C11_no_round_fails.
Print Assumptions C11_always_readable.
Print Assumptions C11_never_two_keys.
Print Assumptions C11_versions_close.
Print Assumptions C11_idle_agree.
Print Assumptions C11_completion_advances.
Print Assumptions C11_key_never_replaced.
Print Assumptions C64_refuted.
Print Assumptions C65_refuted.
Print Assumptions C65_alone_partial.
