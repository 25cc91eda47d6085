(** Keep-alives of a session: citadel_proto/src/proto/state_container/monitoring.rs 9-64,
    packet_processor/keep_alive_packet.rs 53-135, state_subcontainers/meta_expiry_container.rs 32-52, the periodic check in
    session.rs 1225-1243, the setting in citadel_sdk/src/remote_ext.rs 313-321, node.rs 510, session_manager.rs 460 and
    preconnect_packet.rs 153.

    Left out: the sealing of the packets (a keep-alive here is one that was opened, C95 and others); sessions that are not yet
    connected, for which neither packets nor checks do anything; ping, jitter and round-trip time, which are only
    recorded.  Simplified: the wall clock and the monotonic clock of a node run alike (the user does not set the clock during
    the session), and times are unbounded integers of nanoseconds except where the setting is read. *)
From Coq Require Import ZArith.
From stdpp Require Import prelude.
Local Open Scope Z_scope.

(** constants.rs 57-59, 72: KEEP_ALIVE_INTERVAL_MS, KEEP_ALIVE_TIMEOUT_NS, GROUP_EXPIRE_TIME_MS *)
Definition second : Z := 1000000000.
Definition interval : Z := 900 * second.
Definition default_timeout : Z := 3 * interval.
Definition expire : Z := 60 * second.

(** [as i64], and multiplication of i64 in a release build *)
Definition wrap64 (z : Z) : Z := (z + 9223372036854775808) mod 18446744073709551616 - 9223372036854775808.

(** the timeout the session uses when the user asks for [d] nanoseconds: [as_secs] in remote_ext.rs 321, node.rs 510,
    session_manager.rs 460; the server takes the same number from the SYN packet, preconnect_packet.rs 153 *)
Definition timeout_of (d : option Z) : Z :=
  match d with None => default_timeout | Some d => wrap64 (wrap64 (d / second) * second) end.

(** [ka_last]: network_stats.last_keep_alive; [ka_heard]: meta_expiry_state.last_valid_ns *)
Record ka := mk_ka { ka_timeout : Z; ka_last : option Z; ka_heard : Z }.
Definition ka_init (timeout start : Z) : ka := mk_ka timeout None start.

(** meta_expiry_container.rs 43-47 *)
Definition expired (k : ka) (now : Z) : bool := expire <? now - ka_heard k.

(** monitoring.rs 9-53 *)
Definition on_keep_alive (k : ka) (stamp now : Z) : bool * ka :=
  if ka_timeout k =? 0 then (true, k)
  else
    let ping := Z.abs (now - stamp) in
    let now' := if now - stamp <? 0 then stamp else now in
    match ka_last k with
    | Some _ =>
        if ka_timeout k <? ping then (negb (expired k now), mk_ka (ka_timeout k) None (ka_heard k))
        else (true, mk_ka (ka_timeout k) (Some now') (ka_heard k))
    | None => (true, mk_ka (ka_timeout k) (Some now') (ka_heard k))
    end.

(** monitoring.rs 56-63 *)
Definition timed_out (k : ka) (now : Z) : bool :=
  match ka_last k with Some t => ka_timeout k <? now - t | None => false end.

(** what happens at a node, with its clock; a keep-alive bears the sender's *)
Inductive kev :=
| KeepAlive (now stamp : Z)
| Packet (now : Z)       (* any packet that counts as progress *)
| Check (now : Z).       (* the periodic check *)
Definition at_time (e : kev) : Z := match e with KeepAlive t _ | Packet t | Check t => t end.

(** [None]: the session is ended *)
Definition kstep (k : ka) (e : kev) : option ka :=
  match e with
  | KeepAlive now stamp =>                                             (* keep_alive_packet.rs 91-124 *)
      let '(ok, k') := on_keep_alive k stamp now in
      if ok || negb (expired k' now) then Some k' else None
  | Packet now => Some (mk_ka (ka_timeout k) (ka_last k) (Z.max (ka_heard k) now))   (* meta_expiry_container.rs 49-52 *)
  | Check now =>                                                       (* session.rs 1225-1243 *)
      if negb (ka_timeout k =? 0) && timed_out k now && expired k now then None else Some k
  end.
Fixpoint krun (k : ka) (es : list kev) : option ka :=
  match es with [] => Some k | e :: rest => match kstep k e with Some k' => krun k' rest | None => None end end.
