(** C08: ordered delivery. *)
From stdpp Require Import prelude gmap.
From Verif Require Import Ordered_Model Ordered_Spec Ordered_Proofs.
Local Open Scope N_scope.

(** If all arrivals are copies of messages of one sender (any order, duplicates, losses; the
    consumer may vanish at any time), the consumer has been handed an initial segment of the
    sender's messages, in order, each once. *)
Theorem C08_prefix : forall (T : Type) (msgs : list T) ops,
  ids_in_range ops -> copies_of msgs ops ->
  exists k, och_delivered (run ops) = take k msgs.
Proof. intros T. exact copies_prefix. Qed.
Print Assumptions C08_prefix.

(** While the consumer is there, the initial segment is the longest one whose messages have all
    arrived: if 0..k-1 arrived and k did not, exactly messages 0..k-1 were delivered. *)
Theorem C08_exact : forall (T : Type) (msgs : list T) ops k,
  ids_in_range ops -> copies_of msgs ops -> ConsumerGone ∉ ops ->
  (forall i, i < N.of_nat k -> exists p, arrived ops i p) ->
  (forall p, ~ arrived ops (N.of_nat k) p) ->
  och_delivered (run ops) = take k msgs /\ length (och_delivered (run ops)) = k.
Proof. intros T. exact copies_exact. Qed.
Print Assumptions C08_exact.

(** With arbitrary (even conflicting) payloads: the k-th delivered packet is one that arrived
    under number k. *)
Theorem C08_no_invention : forall (T : Type) (ops : list (op T)),
  ids_in_range ops ->
  forall k p, och_delivered (run ops) !! k = Some p -> arrived ops (N.of_nat k) p.
Proof. intros T. exact delivered_in_order. Qed.
Print Assumptions C08_no_invention.

(** Deliveries are never retracted. *)
Theorem C08_monotone : forall (T : Type) (ops : list (op T)) o,
  ids_in_range (ops ++ [o]) ->
  exists l, och_delivered (run (ops ++ [o])) = och_delivered (run ops) ++ l.
Proof. intros T. exact delivered_monotone. Qed.
Print Assumptions C08_monotone.

(** Duplicates of delivered packets are not retained in the reorder buffer. *)
Theorem C08_buffer_only_undelivered : forall (T : Type) (ops : list (op T)) i p,
  ids_in_range ops -> och_map (run ops) !! i = Some p ->
  arrived ops i p /\ N.of_nat (length (och_delivered (run ops))) <= i.
Proof. intros T. exact buffer_bounded. Qed.
Print Assumptions C08_buffer_only_undelivered.

Definition ex_ops : list (op N) :=
  [Arrive 2 102; Arrive 2 102; Arrive 0 100; Arrive 0 100; Arrive 4 104; Arrive 1 101; Arrive 1 101].
Example C08_example :
  och_delivered (run ex_ops) = [100; 101; 102] /\ ids_in_range ex_ops /\
  copies_of [100; 101; 102; 103; 104; 105] ex_ops /\ ConsumerGone ∉ ex_ops /\
  (forall i, i < 3 -> exists p, arrived ex_ops i p) /\ (forall p, ~ arrived ex_ops 3 p).
Proof.
  split; [vm_compute; reflexivity|].
  split. { intros i p H. unfold ex_ops in H. set_unfold in H. naive_solver lia. }
  split. { intros i p H. unfold ex_ops in H. set_unfold in H. naive_solver. }
  split. { unfold ex_ops. intros H. set_unfold in H. naive_solver. }
  split.
  - intros i Hi. assert (i = 0 \/ i = 1 \/ i = 2) as [->|[->| ->]] by lia;
      [exists 100|exists 101|exists 102]; unfold arrived, ex_ops; set_solver.
  - intros p H. unfold arrived, ex_ops in H. set_unfold in H. naive_solver.
Qed.

(** Why the range hypothesis is needed: number 2^64 - 1 makes the channel expect number 0 again,
    so a duplicate of message 0 would be delivered a second time. *)
Example C08_wrap_boundary :
  let st := mk_och (∅ : gmap N N) (Some (2^64 - 1)) true [7] in
  och_delivered (on_packet_received st 0 42).2 = [7; 42].
Proof. vm_compute. reflexivity. Qed.
