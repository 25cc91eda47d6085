(** Theorems about the session manager: C32, C33 and C79. *)
From Coq Require Import ZifyBool ZifyNat ZifyN.
From stdpp Require Import prelude gmap.
From Verif Require Import SessionManager_Model SessionManager_Spec
  SessionManager_Proofs.
Local Open Scope N_scope.

Definition ends (es : list sm_event) : mgr := (sm_run sm0 es).1.
Definition told (es : list sm_event) : sm_hist := (sm_run sm0 es).2.

Definition anything (s : mgr) (es : list sm_event) : Prop := True.

(** A run in which account 7 connects on socket 0. *)
Definition connect (sid cid addr : N) : list sm_event :=
  [EOpen addr; ETick 1; ESyn sid cid; ECommit sid; EUpgrade sid;
   EConnected sid].

Global Instance holds_dec h now sid cid : Decision (holds h now sid cid).
Proof.
  refine (match clearances h !! sid as o
    return clearances h !! sid = o → Decision (holds h now sid cid) with
  | Some (c, t, b) => λ E,
      if decide (c = cid ∧ (b = true ∨ now < t + 30)) then left _ else right _
  | None => λ E, right _
  end eq_refl).
  - destruct a as [-> H]. by exists t, b.
  - intros (t' & b' & E' & H). rewrite E in E'. simplify_eq. tauto.
  - intros (t' & b' & E' & H). congruence.
Defined.

(** ** C32 *)

(** An attempt that waited for the end of an older session goes ahead without
    a reservation.  Account 7 is connected on socket 0; its session begins
    to end; socket 1 sends a SYN and waits; the old session is torn down and
    socket 1 is cleared; before it commits, socket 2 sends a SYN for the same
    account and is cleared, too. *)
Definition both_cleared : list sm_event :=
  connect 0 7 100 ++
  [EDisc 0; ETick 1; EOpen 101; ETick 1; EOpen 102;
   ESyn 1 7; EClear 0; EDone 0; EDropped 1].

Theorem C32_refuted :
  ∃ es e s', sm_step (ends es) e = (s', OCleared 7) ∧ who e = Some 2 ∧
    holds (told es) (sm_now (ends es)) 1 7.
Proof.
  exists both_cleared, (ESyn 2 7), (sm_step (ends both_cleared) (ESyn 2 7)).1.
  assert (Hd : (sm_step (ends both_cleared) (ESyn 2 7)).2 = OCleared 7)
    by (by vm_compute).
  split; [|split].
  - rewrite <- Hd. apply surjective_pairing.
  - done.
  - apply (bool_decide_unpack _). by vm_compute.
Qed.

(** Both of them then connect: the session that connected first is evicted
    although nobody asked it to end. *)
Example C32_evicts :
  let es := both_cleared ++
    [ESyn 2 7; ECommit 2; EUpgrade 2; EConnected 2;
     ECommit 1; EUpgrade 1; EConnected 1] in
  sm_sessions (ends es) !! 7 = Some 1 ∧
  (ss_state <$> sm_all (ends es) !! 2) = Some Connected ∧
  (ss_state <$> sm_all (ends es) !! 1) = Some Connected.
Proof. by vm_compute. Qed.

(** The same by way of a late answer: attempt 0 is cleared, its reservation
    lapses, attempt 1 is cleared and holds the reservation.  Then attempt 0
    fails and releases the reservation of attempt 1. *)
Theorem C32_late_release_refuted :
  ∃ es e s', sm_step (ends es) e = (s', OCleared 7) ∧ who e = Some 2 ∧
    holds (told es) (sm_now (ends es)) 1 7.
Proof.
  set (es := [EOpen 100; ETick 1; EOpen 101; ETick 1; EOpen 102; ETick 1;
              ESyn 0 7; ETick 30; ESyn 1 7; EFail 0]).
  exists es, (ESyn 2 7), (sm_step (ends es) (ESyn 2 7)).1.
  assert (Hd : (sm_step (ends es) (ESyn 2 7)).2 = OCleared 7) by (by vm_compute).
  split; [|split].
  - rewrite <- Hd. apply surjective_pairing.
  - done.
  - apply (bool_decide_unpack _). by vm_compute.
Qed.

(** And by way of a failed registration, which takes the socket out of the
    map of provisional connections while the socket stays open: the attempt
    made on it afterwards commits, but nobody can find it. *)
Theorem C32_registration_refuted :
  ∃ es e s', sm_step (ends es) e = (s', OCleared 7) ∧ who e = Some 1 ∧
    holds (told es) (sm_now (ends es)) 0 7.
Proof.
  set (es := [EOpen 100; ETick 1; EOpen 101; ERegFail 0; ESyn 0 7; ECommit 0]).
  exists es, (ESyn 1 7), (sm_step (ends es) (ESyn 1 7)).1.
  assert (Hd : (sm_step (ends es) (ESyn 1 7)).2 = OCleared 7) by (by vm_compute).
  split; [|split].
  - rewrite <- Hd. apply surjective_pairing.
  - done.
  - apply (bool_decide_unpack _). by vm_compute.
Qed.

(** Apart from these, the property holds.  Missing from the full statement
    ([one_clearance anything]): the restriction [calm] (no SYN for an account
    while its session is ending, none on a socket that has an account
    already or whose registration failed, SYNs settled before their
    reservation lapses, no re-used address or instant). *)
Theorem C32_partial : one_clearance calm.
Proof. exact calm_one_clearance. Qed.

Theorem C32_full_refuted : ¬ one_clearance anything.
Proof.
  intros H. destruct C32_refuted as (es & e & s' & Hs & _ & Hh).
  eapply (H es (ends es) (told es) e s' 7); [done| |exact Hs|exact Hh].
  apply surjective_pairing.
Qed.

(** The waiting attempts, without any restriction: one is cleared only when the session of the account that was ending when
    it asked is gone, or five seconds after it asked. Missing: it has no reservation (see the refutations above). *)
Theorem C32_waited_partial es sid cid s' e :
  (e = EDropped sid ∨ e = ETimeout sid) → sm_step (ends es) e = (s', OCleared cid) →
  ∃ es1 es2 old, es = es1 ++ ESyn sid cid :: es2 ∧
    (sm_step (ends es1) (ESyn sid cid)).2 = OWaits ∧ lookup_cid (ends es1) cid = Some old ∧
    ((e = EDropped sid ∧ EDone old ∈ es) ∨ (e = ETimeout sid ∧ sm_now (ends es1) + 5 ≤ sm_now (ends es))).
Proof.
  intros He Hs. assert (Hx : ∃ x old t, sm_all (ends es) !! sid = Some x ∧ ss_try x = TWait cid old t ∧
    ((e = EDropped sid ∧ ∃ o, sm_all (ends es) !! old = Some o ∧ ss_phase o = Gone) ∨ (e = ETimeout sid ∧ t + 5 ≤ sm_now (ends es)))).
  { destruct He as [-> | ->]; cbn [sm_step] in Hs; (destruct (sm_all (ends es) !! sid) as [x|] eqn:Ex; [|done]);
      (destruct (ss_try x) as [|c old t|] eqn:Et; [done| |done]).
    - destruct (sm_all (ends es) !! old) as [o|] eqn:Eo; [|done]. case_bool_decide as Hp; [|done]. injection Hs as _ ->.
      exists x, old, t. split; [done|]. split; [done|]. left. split; [done|]. by exists o.
    - destruct (t + WAIT <=? sm_now (ends es)) eqn:E; [|done]. injection Hs as _ ->.
      exists x, old, t. split; [done|]. split; [done|]. right. split; [done|]. unfold WAIT in E. lia. }
  destruct Hx as (x & old & t & Hx & Ht & Hor). destruct (run_waits es sid x cid old t Hx Ht) as (es1 & es2 & E & Hnow & Ho & Hl).
  exists es1, es2, old. split; [done|]. split; [done|]. split; [done|].
  destruct Hor as [[-> (o & H1 & H2)]|[-> H]]; [left; split; [done|by eapply run_gone]|right; split; [done|]].
  unfold ends in *. by rewrite <- Hnow.
Qed.
Example C32_waited_example :
  (sm_step (ends (take 13 both_cleared)) (EDropped 1)).2 = ONone ∧
  (sm_step (ends (take 14 both_cleared)) (EDropped 1)).2 = OCleared 7.
Proof. by vm_compute. Qed.

(** A calm run with three attempts: the second is refused while the first is
    pending and while it is connected; after the first has gone, the third
    is cleared. *)
Definition three : list sm_event :=
  [EOpen 100; ETick 1; EOpen 101; ETick 1; EOpen 102; ETick 1;
   ESyn 0 7; ESyn 1 7; ECommit 0; ESyn 1 7; EUpgrade 0; EConnected 0;
   ESyn 1 7; EDisc 0; EClear 0; EDone 0; ESyn 2 7].

Example C32_example :
  filter (λ o, o ≠ ONone) ((λ r : N * sm_event * sm_out, r.2) <$> told three) =
  [OCleared 7; ORefused; ORefused; ORefused; OCleared 7].
Proof. by vm_compute. Qed.

Lemma inits_lookup s (P : sess → Prop) :
  map_Forall (λ _, P) (sm_all s) →
  ∀ sid x, sm_all s !! sid = Some x → P x.
Proof. intros H sid x Hx. exact (H sid x Hx). Qed.

Definition calm_evb (s : mgr) (e : sm_event) : bool :=
  match e with
  | EOpen addr =>
      bool_decide (sm_prov s !! addr = None) &&
      bool_decide (map_Forall (λ _ x, ss_init x ≠ sm_now s) (sm_all s))
  | ESyn sid cid =>
      match sm_all s !! sid with
      | Some x => bool_decide (ss_cid x = None)
      | None => true
      end && bool_decide ((sm_step s e).2 ≠ OWaits)
  | ECommit sid | EFail sid =>
      match sm_all s !! sid with
      | Some x =>
          match ss_try x with
          | TClear _ t => sm_now s <? t + 30
          | _ => true
          end
      | None => true
      end
  | ERegFail _ => false
  | _ => true
  end.

Fixpoint calmb (s : mgr) (es : list sm_event) : bool :=
  match es with
  | [] => true
  | e :: es => calm_evb s e && calmb (sm_step s e).1 es
  end.

Lemma calm_evb_ok s e : calm_evb s e = true → calm_ev s e.
Proof.
  destruct e; cbn [calm_evb calm_ev]; try done.
  - intros [H1%bool_decide_eq_true H2%bool_decide_eq_true]%andb_prop.
    split; [done|]. exact (inits_lookup _ _ H2).
  - intros [H1 H2%bool_decide_eq_true]%andb_prop. split; [|done].
    intros x Hx. rewrite Hx in H1. by apply bool_decide_eq_true in H1.
  - intros H x c t Hx Ht. rewrite Hx, Ht in H. by apply N.ltb_lt.
  - intros H x c t Hx Ht. rewrite Hx, Ht in H. by apply N.ltb_lt.
Qed.

Lemma calmb_ok es s : calmb s es = true → calm s es.
Proof.
  revert s. induction es as [|e es IH]; intros s; cbn [calmb calm]; [done|].
  intros [H1 H2]%andb_prop. split; [by apply calm_evb_ok|by apply IH].
Qed.

Example C32_example_calm : calm sm0 three.
Proof. apply calmb_ok. by vm_compute. Qed.

(** ** C33 *)

(** Whatever happened before, and whatever the steps of the teardown of one
    session are: any other session that is registered under an account, or
    waits as a provisional one, stays. *)
Theorem C33_replacement_stays :
  ∀ es sid td other,
    distinct_instants sm0 es → Forall (ends_session sid) td → other ≠ sid →
    (∀ cid, registered (ends es) cid other →
            registered (ends (es ++ td)) cid other) ∧
    (∀ a, provisional (ends es) a other →
          provisional (ends (es ++ td)) a other).
Proof.
  intros es sid td other Hd Ht Hne. unfold ends, registered, provisional.
  rewrite sm_run_app. cbn [fst].
  apply (ends_keep _ sid); [by apply instants_differ|done|done].
Qed.

(** The session on socket 0 lingers; socket 1 is cleared by force and takes
    its place; then the session on socket 0 finishes. *)
Definition lingering : list sm_event :=
  connect 0 7 100 ++
  [EDisc 0; ETick 1; EOpen 101; ESyn 1 7; ETick 5; ETimeout 1; ECommit 1;
   EUpgrade 1; EConnected 1].

Example C33_example :
  registered (ends lingering) 7 1 ∧
  registered (ends (lingering ++ [EClear 0; EDone 0])) 7 1.
Proof. split; by vm_compute. Qed.

(** Sessions are told apart by the instant at which they were accepted.  Two
    sessions accepted at the same instant of the clock are not. *)
Theorem C33_same_instant_refuted :
  ∃ es, registered (ends es) 7 1 ∧
    ¬ registered (ends (es ++ [EClear 0])) 7 1.
Proof.
  exists [EOpen 100; EOpen 101; ESyn 0 7; ECommit 0; EUpgrade 0; EConnected 0;
     EDisc 0; ESyn 1 7; ETick 5; ETimeout 1; ECommit 1; EUpgrade 1].
  split; [by vm_compute|]. by vm_compute.
Qed.

(** ** C79 *)
Lemma connected_at s sid c :
  (λ x, (ss_state x, ss_cid x)) <$> sm_all s !! sid =
    Some (Connected, Some c) →
  ∃ x, sm_all s !! sid = Some x ∧ ss_state x = Connected ∧ ss_cid x = Some c.
Proof.
  destruct (sm_all s !! sid) as [x|]; [|done].
  intros H. cbn in H. injection H as E1 E2. by exists x.
Qed.

(** A session that takes the place of a lingering one loses its groups, its
    requests and its mail when the old session finishes at last: the end of
    a session removes the account from the peer layer, whoever uses it. *)
Theorem C79_refuted :
  ∃ es, let s := ends es in
    registered s 7 1 ∧
    (∃ x, sm_all s !! 1 = Some x ∧ ss_state x = Connected ∧
          ss_cid x = Some 7) ∧
    7 ∉ sm_layer s.
Proof.
  exists (lingering ++ [EClear 0; EDone 0; ETask 7]). cbv zeta.
  set (s := ends (lingering ++ [EClear 0; EDone 0; ETask 7])).
  assert (H1 : registered s 7 1) by (by vm_compute).
  assert (H2 : (λ x, (ss_state x, ss_cid x)) <$> sm_all s !! 1 =
               Some (Connected, Some 7)) by (by vm_compute).
  assert (H3 : bool_decide (7 ∉ sm_layer s) = true) by (by vm_compute).
  split; [exact H1|]. split; [exact (connected_at _ _ _ H2)|].
  exact (proj1 (bool_decide_eq_true _) H3).
Qed.

(** The same without any force: the old session has ended before the new one
    is cleared, only the spawned clean-up task runs late. *)
Theorem C79_late_task_refuted :
  ∃ es, calm sm0 es ∧ let s := ends es in
    registered s 7 1 ∧
    (∃ x, sm_all s !! 1 = Some x ∧ ss_state x = Connected ∧
          ss_cid x = Some 7) ∧
    7 ∉ sm_layer s.
Proof.
  set (es := connect 0 7 100 ++ [EDisc 0; EClear 0; EDone 0] ++
             connect 1 7 101 ++ [ETask 7]).
  exists es. split; [apply calmb_ok; by vm_compute|]. cbv zeta.
  assert (H1 : registered (ends es) 7 1) by (by vm_compute).
  assert (H2 : (λ x, (ss_state x, ss_cid x)) <$> sm_all (ends es) !! 1 =
               Some (Connected, Some 7)) by (by vm_compute).
  assert (H3 : bool_decide (7 ∉ sm_layer (ends es)) = true) by (by vm_compute).
  split; [exact H1|]. split; [exact (connected_at _ _ _ H2)|].
  exact (proj1 (bool_decide_eq_true _) H3).
Qed.

(** Missing from the full statement ([known_while_connected anything]): that
    the run is calm, and that a connection is completed only after all older
    sessions of the account are gone and cleaned up. *)
Theorem C79_partial :
  known_while_connected (λ s es, calm s es ∧ settled s es).
Proof.
  intros es [Hc Hs] s sid x cid Hx Hst Hcid _.
  by apply (kn_layer _ (known_run es Hc Hs) _ _ _ Hx Hst Hcid).
Qed.

Example C79_example :
  let es := connect 0 7 100 ++ [EDisc 0; EClear 0; EDone 0; ETask 7] ++
            connect 1 7 101 in
  calm sm0 es ∧ elements (sm_layer (ends es)) = [7] ∧
  (ss_state <$> sm_all (ends es) !! 1) = Some Connected.
Proof.
  split_and!; [apply calmb_ok; by vm_compute|by vm_compute|by vm_compute].
Qed.

Print Assumptions C32_refuted.
Print Assumptions C32_late_release_refuted.
Print Assumptions C32_registration_refuted.
Print Assumptions C32_partial.
Print Assumptions C32_full_refuted.
Print Assumptions C33_replacement_stays.
Print Assumptions C33_same_instant_refuted.
Print Assumptions C79_refuted.
Print Assumptions C79_late_task_refuted.
Print Assumptions C79_partial.
Print Assumptions C32_waited_partial.
