(** C165-C166: starting something at two nodes at once. *)
From Coq Require Import ZArith Lia ZifyBool.
From stdpp Require Import prelude.
From Verif Require Import SyncStart_Model.
Local Open Scope Z_scope.

(** messages take time; the whole takes less than 100 years *)
Definition causal (t : sync_times) : Prop :=
  st_syn t ≤ st_syn_ack t ≤ st_ack t ∧ st_ack t ≤ st_got t ∧ st_got t - st_syn t ≤ 3000000000000000000.
(** a clock that runs at the right speed and is [o] ahead *)
Definition ahead (o : Z) : clock := λ t, t + o.
(** a clock that runs at the right speed but is set back by [d] at [at_] *)
Definition set_back (at_ d : Z) : clock := λ t, if t <? at_ then t else t - d.

Lemma as_u64_id x : 0 ≤ x < 18446744073709551616 → as_u64 x = x.
Proof. apply Z.mod_small. Qed.

(** C165: the two nodes start at about the same time: the times differ by no more than the messages took.  False: they also differ by
    the difference of the clocks.  Here messages take a millisecond and the clock of the initiator is an hour late. *)
Theorem C165_refuted :
  ¬ (∀ cr ci t, causal t → (∃ o, cr = ahead o) → (∃ o, ci = ahead o) →
       Z.abs (receiver_starts cr t - initiator_starts cr ci t) ≤ st_got t - st_syn t).
Proof.
  intros H. specialize (H (ahead 0) (ahead (Z.opp 3600000000000)) (mk_sync_times 0 1000000 2000000 3000000)).
  assert (3599999999999 < Z.abs (receiver_starts (ahead 0) (mk_sync_times 0 1000000 2000000 3000000) -
     initiator_starts (ahead 0) (ahead (Z.opp 3600000000000)) (mk_sync_times 0 1000000 2000000 3000000))) as Hd by (vm_compute; reflexivity).
  assert (Z.abs (receiver_starts (ahead 0) (mk_sync_times 0 1000000 2000000 3000000) -
     initiator_starts (ahead 0) (ahead (Z.opp 3600000000000)) (mk_sync_times 0 1000000 2000000 3000000)) ≤ 3000000) as Hl.
  { apply H; [|by eexists|by eexists]. unfold causal. cbn. lia. }
  lia.
Qed.
(** What holds: with clocks that run at the right speed they differ by no more than the clocks do, and what the last message took beyond the
    first two.  With clocks that agree they start at the very same time if the last message took no longer than the first two. *)
Theorem C165_partial o o' t :
  causal t → Z.abs (o - o') ≤ 3000000000000000000 →
  Z.abs (receiver_starts (ahead o) t - initiator_starts (ahead o) (ahead o') t)
    ≤ Z.max (Z.abs (o - o')) ((st_got t - st_ack t) - (st_ack t - st_syn t)).
Proof.
  intros Hc Ho. unfold causal in Hc. unfold receiver_starts, initiator_starts, sync_time, rtt, ahead.
  destruct (_ >? _) eqn:E; rewrite !as_u64_id by lia; lia.
Qed.
Theorem C165_same_time_partial o t :
  causal t → st_got t - st_ack t ≤ st_ack t - st_syn t →
  receiver_starts (ahead o) t = initiator_starts (ahead o) (ahead o) t.
Proof.
  intros Hc Hl. pose proof (C165_partial o o t Hc ltac:(lia)) as H. unfold causal in Hc. lia.
Qed.
Example C165_example :
  (receiver_starts (ahead 5) (mk_sync_times 100 110 130 145), initiator_starts (ahead 5) (ahead 9) (mk_sync_times 100 110 130 145),
   initiator_starts (ahead 5) (ahead 5) (mk_sync_times 100 110 130 145)) = (160, 156, 160).
Proof. by vm_compute. Qed.

(** C166: a node starts soon after the last message: no later than the messages took, once more.  False: if the clock of the receiver is set back
    by a little more than the first two messages took, the difference is negative, and as an unsigned number some 584 years. *)
Theorem C166_refuted :
  causal (mk_sync_times 0 1000000 2000000 3000000) ∧
  18446744073000000000 < receiver_starts (set_back 1000000 2000001) (mk_sync_times 0 1000000 2000000 3000000).
Proof. split; [unfold causal; cbn; lia|by vm_compute]. Qed.
(** What holds: with clocks that agree and run at the right speed it does; and no node starts before the other has taken part. *)
Theorem C166_partial o t :
  causal t →
  st_ack t ≤ receiver_starts (ahead o) t ≤ st_ack t + (st_got t - st_syn t) ∧
  st_got t ≤ initiator_starts (ahead o) (ahead o) t ≤ st_ack t + (st_got t - st_syn t).
Proof.
  intros Hc. unfold causal in Hc. unfold receiver_starts, initiator_starts, sync_time, rtt, ahead.
  destruct (_ >? _) eqn:E; rewrite !as_u64_id by lia; lia.
Qed.
(** Whatever the clocks show, no node starts before it has heard from the other: the receiver after SYN_ACK, the initiator after ACK. *)
Theorem C166_not_before_partial cr ci t :
  causal t → st_ack t ≤ receiver_starts cr t ∧ st_got t ≤ initiator_starts cr ci t.
Proof.
  intros Hc. unfold receiver_starts, initiator_starts, as_u64.
  pose proof (Z.mod_pos_bound (rtt cr t) 18446744073709551616 ltac:(lia)).
  pose proof (Z.mod_pos_bound (Z.abs (sync_time cr t - ci (st_got t))) 18446744073709551616 ltac:(lia)).
  destruct (_ >? _); lia.
Qed.
Example C166_example :
  causal (mk_sync_times 100 110 130 145) ∧ receiver_starts (set_back 120 10) (mk_sync_times 100 110 130 145) = 150.
Proof. split; [unfold causal; cbn; lia|by vm_compute]. Qed.
Print Assumptions C165_refuted.
Print Assumptions C165_partial.
Print Assumptions C165_same_time_partial.
Print Assumptions C166_refuted.
Print Assumptions C166_partial.
Print Assumptions C166_not_before_partial.
