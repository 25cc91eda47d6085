(** Model of citadel_pqcrypto/src/replay_attack_container.rs. *)
From stdpp Require Import prelude gmap.
Local Open Scope N_scope.

(** u64::MAX *)
Definition u64_max : N := 2 ^ 64 - 1.

(** replay_attack_container.rs:62  [HISTORY_LEN] *)
Definition HISTORY_LEN : N := 1024.

(** replay_attack_container.rs:73-78  [AntiReplayAttackContainer].
    The mutex and the atomic are dropped: every method is one step. *)
Record ara := mk_ara {
  ara_high_water : N;       (* history.0 *)
  ara_seen : gset N;        (* history.1 *)
  ara_counter_out : N;      (* counter_out *)
}.

(** replay_attack_container.rs:150-158  [Default::default] *)
Definition ara_default : ara := mk_ara 0 ∅ 0.

(** u64::saturating_add(1) *)
Definition sat_succ (x : N) : N := N.min (x + 1) u64_max.

(** replay_attack_container.rs:83-86  [get_next_pid]: AtomicU64::fetch_add wraps. *)
Definition get_next_pid (s : ara) : N * ara :=
  (ara_counter_out s,
   mk_ara (ara_high_water s) (ara_seen s) ((ara_counter_out s + 1) mod 2 ^ 64)).

(** The loop [for stale in floor..new_floor { seen.remove(&stale); }],
    replay_attack_container.rs:128-130. [len] is the number of iterations. *)
Fixpoint remove_range (lo : N) (len : nat) (seen : gset N) : gset N :=
  match len with
  | O => seen
  | S len' => remove_range (lo + 1) len' (seen ∖ {[ lo ]})
  end.

(** replay_attack_container.rs:100-136  [on_pid_received].
    [N.sub] is saturating, as [u64::saturating_sub]. *)
Definition on_pid_received (s : ara) (pid : N) : bool * ara :=
  let floor := ara_high_water s - HISTORY_LEN in
  if bool_decide (pid < floor) then (false, s)
  else if bool_decide (pid ∈ ara_seen s) then (false, s)
  else
    let seen := {[ pid ]} ∪ ara_seen s in
    let new_hw := N.max (ara_high_water s) (sat_succ pid) in
    let new_floor := new_hw - HISTORY_LEN in
    let seen' :=
      if bool_decide (floor < new_floor) then
        if bool_decide (HISTORY_LEN <= new_floor - floor)
        then filter (fun p => new_floor <= p) seen
        else remove_range floor (N.to_nat (new_floor - floor)) seen
      else seen in
    (true, mk_ara new_hw seen' (ara_counter_out s)).

(** replay_attack_container.rs:138-140  [has_tracked_packets] *)
Definition has_tracked_packets (s : ara) : bool :=
  negb (ara_counter_out s =? 0) || negb (ara_high_water s =? 0).

(** replay_attack_container.rs:142-147  [reset] *)
Definition reset (s : ara) : ara := mk_ara 0 ∅ 0.

(** The public API as operations. *)
Inductive op := Recv (pid : N) | NextPid | Reset.
Inductive out := OVerdict (accepted : bool) | OPid (pid : N) | OUnit.

Definition step (s : ara) (o : op) : out * ara :=
  match o with
  | Recv pid => let '(b, s') := on_pid_received s pid in (OVerdict b, s')
  | NextPid => let '(p, s') := get_next_pid s in (OPid p, s')
  | Reset => (OUnit, reset s)
  end.

Fixpoint run (s : ara) (ops : list op) : list out * ara :=
  match ops with
  | [] => ([], s)
  | o :: ops' =>
      let '(x, s1) := step s o in
      let '(xs, s2) := run s1 ops' in (x :: xs, s2)
  end.
