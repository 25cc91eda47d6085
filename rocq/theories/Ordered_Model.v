(** Model of citadel_crypt/src/ordered_channel.rs. *)
From stdpp Require Import prelude gmap.
Local Open Scope N_scope.

Section ordered.
Context {T : Type}.

(** ordered_channel.rs:36-47  [OrderedChannelState] and [OrderedChannel].
    Simplifications: the arrival time stamp is dropped (never read); the mutex is dropped (each
    call of [on_packet_received] runs under it). The tokio sender [sink] is represented by the
    list of packets handed to the consumer and by whether the consumer still holds the receiver:
    [UnboundedSender::send] fails exactly when it does not. *)
Record och := mk_och {
  och_map : gmap N T;
  och_last : option N;
  och_sink_open : bool;
  och_delivered : list T;
}.

(** ordered_channel.rs:50-59  [new] *)
Definition och_new : och := mk_och ∅ None true [].

(** u64::wrapping_add(1) *)
Definition wrapping_succ (x : N) : N := (x + 1) mod 2 ^ 64.

(** ordered_channel.rs:139-149  [send_unconditional]; the boolean is [is_ok()]. *)
Definition send_unconditional (st : och) (id : N) (packet : T) : bool * och :=
  if och_sink_open st
  then (true, mk_och (och_map st) (Some id) true (och_delivered st ++ [packet]))
  else (false, st).

(** ordered_channel.rs:125-137  [scan_send]. [cur] is [cur_scan_id]. Every iteration removes an
    entry from the map, so [size map] iterations plus the final failing look-up are enough
    (lemma [scan_send_stops]). *)
Fixpoint scan_send (fuel : nat) (st : och) (cur : N) : bool * och :=
  match fuel with
  | O => (true, st)
  | S fuel' =>
      match och_map st !! cur with
      | None => (true, st)
      | Some next =>
          let st1 := mk_och (delete cur (och_map st)) (och_last st) (och_sink_open st) (och_delivered st) in
          match send_unconditional st1 cur next with
          | (false, st2) => (false, st2)
          | (true, st2) => scan_send fuel' st2 (wrapping_succ cur)
          end
      end
  end.

(** ordered_channel.rs:110-122  [send_then_scan] *)
Definition send_then_scan (st : och) (new_id : N) (packet : T) : bool * och :=
  match send_unconditional st new_id packet with
  | (false, st1) => (false, st1)
  | (true, st1) =>
      if bool_decide (och_map st1 = ∅) then (true, st1)
      else scan_send (S (size (och_map st1))) st1 (wrapping_succ new_id)
  end.

(** ordered_channel.rs:96-101  [is_already_delivered] *)
Definition is_already_delivered (last : option N) (id : N) : bool :=
  match last with
  | Some l => bool_decide (id <= l)
  | None => false
  end.

(** ordered_channel.rs:62-90  [on_packet_received] *)
Definition on_packet_received (st : och) (id : N) (packet : T) : bool * och :=
  let next_expected := match och_last st with Some r => wrapping_succ r | None => 0 end in
  if bool_decide (next_expected = id) then send_then_scan st id packet
  else if is_already_delivered (och_last st) id then (true, st)
  else (true, mk_och (<[ id := packet ]> (och_map st)) (och_last st) (och_sink_open st) (och_delivered st)).

(** What can happen to a channel: a packet arrives, or the consumer goes away. *)
Inductive op := Arrive (id : N) (packet : T) | ConsumerGone.

Definition step (st : och) (o : op) : och :=
  match o with
  | Arrive id p => (on_packet_received st id p).2
  | ConsumerGone => mk_och (och_map st) (och_last st) false (och_delivered st)
  end.

Definition run (ops : list op) : och := fold_left step ops och_new.
End ordered.
Arguments och : clear implicits.
Arguments op : clear implicits.
