(** Theorems about the timers of a session: C46. *)
From Coq Require Import ZifyBool ZifyNat ZifyN.
From stdpp Require Import prelude gmap.
From Verif Require Import SessionQueue_Model SessionQueue_Spec
  SessionQueue_Proofs.
Local Open Scope N_scope.

(** The timers every session starts with (session.rs 1174-1262). *)
Definition start : list q_event :=
  [QInsert (KReserved (Oneshot 0 0)) 10; QInsert (KReserved (Periodic 2 0)) 2;
   QInsert (KReserved (Periodic 3 0)) 3].

(** Two files sent to the server one after the other: the groups of the
    first are numbered 0 to 4, those of the second from 1 on (session.rs
    1475: the start goes up by one per file).  The ticket of the second
    file's first group (1 + 10 + 5) is that of the first file's fourth group
    (3 + 10 + 3), whose timer is still pending.  When the older timer
    expires, it runs the other group's callback; when that says it is done,
    the expiry of the newer timer finds no entry, and the task of the
    session panics. *)
Definition two_files : list q_event :=
  start ++
  ((λ g, QInsert (KOrdinary g 7) 120) <$> [0; 1; 2; 3; 4]) ++
  [QTick 1; QInsert (KOrdinary 1 7) 120] ++
  [QTick 119; QExpire 6 Complete; QTick 1; QExpire 8 Complete].

Theorem C46_refuted :
  ∃ es, q_run q0 es ≠ ts_run ts0 es ∧
    QFired 6 8 ∈ q_run q0 es ∧ QPanic ∈ q_run q0 es.
Proof.
  exists two_files.
  assert (H1 : q_run q0 two_files =
    replicate 11 QNone ++ [QFired 6 8; QNone; QPanic])
    by (by vm_compute).
  assert (H2 : ts_run ts0 two_files =
    replicate 11 QNone ++ [QFired 6 6; QNone; QFired 8 8])
    by (by vm_compute).
  rewrite H1, H2.
  split_and!; apply (bool_decide_unpack _); by vm_compute.
Qed.

(** A group number near 2^64, which a peer may put into the header of a
    group, lands on a reserved ticket: the check for a dead connection is
    silenced. *)
Theorem C46_wrap_refuted :
  ∃ es, q_run q0 es ≠ ts_run ts0 es ∧ QFired 1 1 ∉ q_run q0 es ∧
        QFired 1 1 ∈ ts_run ts0 es.
Proof.
  set (es := start ++ [QInsert (KOrdinary (2 ^ 64 - 8) 0) 120;
                       QTick 3; QExpire 1 Complete]).
  exists es.
  assert (H1 : q_run q0 es = replicate 5 QNone ++ [QFired 1 3])
    by (by vm_compute).
  assert (H2 : ts_run ts0 es = replicate 5 QNone ++ [QFired 1 1])
    by (by vm_compute).
  rewrite H1, H2.
  split_and!; apply (bool_decide_unpack _); by vm_compute.
Qed.

(** Missing from the full statement ([own_timers (λ _, True)]): the
    restriction that reserved tickets are used once and that the group
    numbers registered for one account never go down. *)
Theorem C46_partial :
  own_timers (λ es, orderly [] ∅ es ∧ N.of_nat (length es) < 2 ^ 63).
Proof.
  intros es [Ho Hl].
  apply (own_timers_run es q0 ts0 [] ∅ 0 Rel0 Tix0 Ho). by rewrite N.add_0_l.
Qed.

Theorem C46_full_refuted : ¬ own_timers (λ _, True).
Proof.
  intros H. destruct C46_refuted as (es & Hne & _). by apply Hne, H.
Qed.

(** Three groups in order, the middle one rearmed. *)
Definition in_order : list q_event :=
  start ++ [QInsert (KOrdinary 0 7) 120; QInsert (KOrdinary 1 7) 120;
            QInsert (KOrdinary 1 9) 120; QInsert KOneshot 5; QTick 5;
            QExpire 6 Complete; QExpire 1 Incomplete; QExpire 2 (Adjust 50);
            QTick 115; QExpire 4 Incomplete; QExpire 3 Complete;
            QExpire 3 Complete; QExpire 2 Incomplete; QTick 120;
            QExpire 4 EndSession; QExpire 5 Complete].

Example C46_example :
  orderly [] ∅ in_order ∧
  filter (λ o, o ≠ QNone) (q_run q0 in_order) =
    [QFired 6 6; QFired 1 1; QFired 2 2; QFired 4 4; QFired 3 3; QFired 2 2;
     QFired 4 4].
Proof.
  split; [|by vm_compute]. unfold in_order, start. cbn [orderly app].
  split_and!; try (by vm_compute); set_solver.
Qed.

Print Assumptions C46_refuted.
Print Assumptions C46_wrap_refuted.
Print Assumptions C46_partial.
Print Assumptions C46_full_refuted.
