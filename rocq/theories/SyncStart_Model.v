(** Starting something at two nodes at once: netbeam/src/sync/sync_start.rs 157-228.

    Three messages: the receiver sends SYN, the initiator SYN_ACK, the receiver ACK with the time at which both shall start.  Time is in
    nanoseconds; a clock gives its reading at each true time (netbeam/src/time_tracker.rs).  Left out: lost connections, that a sleep takes a little longer than
    asked, the time between two readings of the clock in a row (sync_start.rs 191-192, 216-219), and that readings are 64 bits wide. *)
From stdpp Require Import prelude.
From Coq Require Import ZArith.
Local Open Scope Z_scope.

(** the true times of sync_start.rs 183 (SYN sent), 205-209 (SYN got, SYN_ACK sent), 188-194 (SYN_ACK got, ACK sent), 213-216 (ACK got) *)
Record sync_times := mk_sync_times { st_syn : Z; st_syn_ack : Z; st_ack : Z; st_got : Z }.
Definition clock := Z → Z.

(** [x as u64], sync_start.rs 197 and 220 *)
Definition as_u64 (x : Z) : Z := x mod 18446744073709551616.

(** sync_start.rs 191 *)
Definition rtt (cr : clock) (t : sync_times) : Z := cr (st_ack t) - cr (st_syn t).
(** sync_start.rs 192 *)
Definition sync_time (cr : clock) (t : sync_times) : Z := cr (st_ack t) + rtt cr t.
(** sync_start.rs 197-199: the true time at which the receiver starts *)
Definition receiver_starts (cr : clock) (t : sync_times) : Z := st_ack t + as_u64 (rtt cr t).
(** sync_start.rs 216-225: the true time at which the initiator starts *)
Definition initiator_starts (cr ci : clock) (t : sync_times) : Z :=
  let now := ci (st_got t) in
  if sync_time cr t >? now then st_got t + as_u64 (Z.abs (sync_time cr t - now)) else st_got t.
