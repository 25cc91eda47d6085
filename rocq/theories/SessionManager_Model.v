(** The server's session manager: which connection attempts for an account
    are cleared, which session is registered under an account, and what the
    end of a session removes.

    Sources (all under citadel_proto/src/proto/):
    - session_manager.rs 185-270  can_proceed_with_new_incoming_connection
    - session_manager.rs 276-278  release_provisional_cid_reservation
    - session_manager.rs 528-667  execute_session_with_safe_shutdown
    - session_manager.rs 679-747  process_new_inbound_connection
    - session_manager.rs 953-975  upgrade_connection
    - session_manager.rs 1015-1031, 1564-1573  clear_(provisional_)session
    - packet_processor/preconnect_packet.rs 61-190  the SYN stage
    - packet_processor/connect_packet.rs 101-207    the connect stage
    - packet_processor/register_packet.rs 302-321   failed registration
    - peer/peer_layer.rs 147-197  register_peer, on_session_shutdown

    Simplifications.
    - Only the server side; the check without reservation that a client makes
      before it connects (session_manager.rs 377) is not modelled.
    - A session is a number; the order of numbers is the order in which the
      sockets were accepted.  A socket address is a number.
    - Time is a number in seconds.  [Instant::now()] is the clock.
    - [session_cid.set] and [release_provisional_cid_reservation] at the
      commit of a SYN are one event (the code runs them one after the other,
      without waiting in between).
    - [register_session_with_peer_layer] and the change to [Connected] are
      one event.
    - At most one SYN is being processed on a socket at a time.
    - The peer layer is the set of the accounts it knows (the keys of
      [message_groups] and [observed_postings], which are inserted and
      removed together). *)
From Coq Require Import ZifyBool ZifyNat ZifyN.
From stdpp Require Import prelude gmap.
Local Open Scope N_scope.

(** session.rs: [SessionState].  [Provisional] stands for the states
    SocketJustOpened, NeedsRegister and NeedsConnect before the session has
    been moved into the map of sessions; [Upgraded] for the same states
    after that. *)
Inductive sstate := Provisional | Upgraded | Connected | Disconnecting.
Global Instance sstate_eq_dec : EqDecision sstate.
Proof. solve_decision. Defined.

(** What the SYN on a socket is waiting for: nothing; the end of an older
    session (session_manager.rs 245-270); the look-up and validation of the
    account after the clearance (preconnect_packet.rs 102-190). *)
Inductive attempt :=
| TNone
| TWait (cid old since : N)
| TClear (cid since : N).
Global Instance attempt_eq_dec : EqDecision attempt.
Proof. solve_decision. Defined.

(** How far the teardown of a session has come: it has not begun; the maps
    have been cleared (session_manager.rs 538-551); the drop listener has
    been dropped (660). *)
Inductive phase := Running | Cleared | Gone.
Global Instance phase_eq_dec : EqDecision phase.
Proof. solve_decision. Defined.

(** session.rs 240-310: the fields of a session used here. *)
Record sess := Sess {
  ss_addr : N;            (* remote_peer *)
  ss_init : N;            (* init_time *)
  ss_cid : option N;      (* session_cid *)
  ss_state : sstate;      (* state *)
  ss_listener : bool;     (* drop_listener is Some *)
  ss_try : attempt;
  ss_phase : phase }.

(** session_manager.rs 90-125: the maps of the session manager. *)
Record mgr := Mgr {
  sm_now : N;
  sm_next : N;
  sm_all : gmap N sess;
  sm_sessions : gmap N N;   (* account -> session *)
  sm_prov : gmap N N;       (* address -> session *)
  sm_resv : gmap N N;       (* account -> time of the reservation *)
  sm_layer : gset N;        (* accounts known to the peer layer *)
  sm_tasks : list N }.      (* spawned on_session_shutdown tasks *)

Definition sm0 : mgr := Mgr 0 0 ∅ ∅ ∅ ∅ ∅ [].

(** constants: PROVISIONAL_CID_RESERVATION_TTL (session_manager.rs 126) and
    the time-out of session_manager.rs 253. *)
Definition TTL : N := 30.
Definition WAIT : N := 5.

Inductive sm_event :=
| ETick (d : N)
| EOpen (addr : N)
| ESyn (sid cid : N)
| EDropped (sid : N)
| ETimeout (sid : N)
| ECommit (sid : N)
| EFail (sid : N)
| EAbandon (sid : N)
| EUpgrade (sid : N)
| EConnected (sid : N)
| EDisc (sid : N)
| EClear (sid : N)
| EDone (sid : N)
| ERegFail (sid : N)
| ETask (cid : N).

Inductive sm_out :=
| ONone
| OCleared (cid : N)
| ORefused
| OWaits.
Global Instance sm_out_eq_dec : EqDecision sm_out.
Proof. solve_decision. Defined.

Definition with_state (st : sstate) (x : sess) : sess :=
  Sess (ss_addr x) (ss_init x) (ss_cid x) st (ss_listener x) (ss_try x)
    (ss_phase x).
Definition with_try (t : attempt) (x : sess) : sess :=
  Sess (ss_addr x) (ss_init x) (ss_cid x) (ss_state x) (ss_listener x) t
    (ss_phase x).
Definition with_cid (c : N) (x : sess) : sess :=
  Sess (ss_addr x) (ss_init x) (Some c) (ss_state x) (ss_listener x)
    (ss_try x) (ss_phase x).
Definition with_listener (b : bool) (x : sess) : sess :=
  Sess (ss_addr x) (ss_init x) (ss_cid x) (ss_state x) b (ss_try x)
    (ss_phase x).
Definition with_phase (p : phase) (x : sess) : sess :=
  Sess (ss_addr x) (ss_init x) (ss_cid x) (ss_state x) (ss_listener x)
    (ss_try x) p.

Definition with_all (m : gmap N sess) (s : mgr) : mgr :=
  Mgr (sm_now s) (sm_next s) m (sm_sessions s) (sm_prov s) (sm_resv s)
    (sm_layer s) (sm_tasks s).
Definition with_resv (m : gmap N N) (s : mgr) : mgr :=
  Mgr (sm_now s) (sm_next s) (sm_all s) (sm_sessions s) (sm_prov s) m
    (sm_layer s) (sm_tasks s).
Definition with_sessions (m : gmap N N) (s : mgr) : mgr :=
  Mgr (sm_now s) (sm_next s) (sm_all s) m (sm_prov s) (sm_resv s)
    (sm_layer s) (sm_tasks s).
Definition with_prov (m : gmap N N) (s : mgr) : mgr :=
  Mgr (sm_now s) (sm_next s) (sm_all s) (sm_sessions s) m (sm_resv s)
    (sm_layer s) (sm_tasks s).
Definition with_layer (l : gset N) (s : mgr) : mgr :=
  Mgr (sm_now s) (sm_next s) (sm_all s) (sm_sessions s) (sm_prov s)
    (sm_resv s) l (sm_tasks s).
Definition with_tasks (l : list N) (s : mgr) : mgr :=
  Mgr (sm_now s) (sm_next s) (sm_all s) (sm_sessions s) (sm_prov s)
    (sm_resv s) (sm_layer s) l.

Definition put (sid : N) (x : sess) (s : mgr) : mgr :=
  with_all (<[sid := x]> (sm_all s)) s.

(** Does session [sid] carry the account [cid]?  [unwrap_or_default]: a
    session without an account carries 0. *)
Definition carries (s : mgr) (cid sid : N) : bool :=
  match sm_all s !! sid with
  | Some x => bool_decide (default 0 (ss_cid x) = cid)
  | None => false
  end.

(** session_manager.rs 194-199: the session registered under the account, or
    else some provisional session that carries it. *)
Definition lookup_cid (s : mgr) (cid : N) : option N :=
  match sm_sessions s !! cid with
  | Some sid => Some sid
  | None => head (filter (λ sid, carries s cid sid = true)
                    (snd <$> map_to_list (sm_prov s)))
  end.

(** session_manager.rs 191-192: reservations older than the limit go. *)
Definition purge (s : mgr) : gmap N N :=
  filter (λ kv : N * N, sm_now s < kv.2 + TTL) (sm_resv s).

(** session_manager.rs 185-243: the part under the lock. *)
Definition can_proceed (s : mgr) (sid cid : N) (x : sess) : mgr * sm_out :=
  let s := with_resv (purge s) s in
  match lookup_cid s cid with
  | Some old =>
      match sm_all s !! old with
      | Some o =>
          if bool_decide (ss_state o = Disconnecting) then
            if ss_listener o then (s, ORefused)
            else (put sid (with_try (TWait cid old (sm_now s)) x)
                    (put old (with_listener true o) s), OWaits)
          else (s, ORefused)
      | None => (s, ORefused)
      end
  | None =>
      match sm_resv s !! cid with
      | Some _ => (s, ORefused)
      | None =>
          (put sid (with_try (TClear cid (sm_now s)) x)
             (with_resv (<[cid := sm_now s]> (sm_resv s)) s), OCleared cid)
      end
  end.

(** session_manager.rs 1564-1573 and 1021-1031. *)
Definition same_init (s : mgr) (x : sess) (other : N) : bool :=
  match sm_all s !! other with
  | Some y => bool_decide (ss_init y = ss_init x)
  | None => false
  end.

Definition clear_session (s : mgr) (x : sess) : mgr :=
  match ss_cid x with
  | Some cid =>
      match sm_sessions s !! cid with
      | Some other =>
          if same_init s x other
          then with_sessions (delete cid (sm_sessions s)) s else s
      | None => s
      end
  | None => s
  end.

Definition clear_prov (s : mgr) (x : sess) : mgr :=
  match sm_prov s !! ss_addr x with
  | Some other =>
      if same_init s x other
      then with_prov (delete (ss_addr x) (sm_prov s)) s else s
  | None => s
  end.

(** One of the spawned tasks for an account has run. *)
Fixpoint remove1 (c : N) (l : list N) : list N :=
  match l with
  | [] => []
  | a :: l => if bool_decide (a = c) then l else a :: remove1 c l
  end.

Definition sm_step (s : mgr) (e : sm_event) : mgr * sm_out :=
  match e with
  | ETick d =>
      (Mgr (sm_now s + d) (sm_next s) (sm_all s) (sm_sessions s) (sm_prov s)
         (sm_resv s) (sm_layer s) (sm_tasks s), ONone)
  | EOpen addr =>
      (* session_manager.rs 705-735 *)
      let sid := sm_next s in
      (Mgr (sm_now s) (sid + 1)
         (<[sid := Sess addr (sm_now s) None Provisional false TNone Running]>
            (sm_all s))
         (sm_sessions s) (<[addr := sid]> (sm_prov s))
         (sm_resv s) (sm_layer s) (sm_tasks s), ONone)
  | ESyn sid cid =>
      (* preconnect_packet.rs 68-71, 90-100; session.rs 2494-2497 *)
      match sm_all s !! sid with
      | Some x =>
          if bool_decide (ss_try x = TNone)
             && bool_decide (ss_state x ≠ Connected)
             && bool_decide (ss_state x ≠ Disconnecting)
          then can_proceed s sid cid x else (s, ONone)
      | None => (s, ONone)
      end
  | EDropped sid =>
      (* session_manager.rs 258: the older session is gone *)
      match sm_all s !! sid with
      | Some x =>
          match ss_try x with
          | TWait cid old since =>
              match sm_all s !! old with
              | Some o =>
                  if bool_decide (ss_phase o = Gone)
                  then (put sid (with_try (TClear cid (sm_now s)) x) s,
                        OCleared cid)
                  else (s, ONone)
              | None => (s, ONone)
              end
          | _ => (s, ONone)
          end
      | None => (s, ONone)
      end
  | ETimeout sid =>
      (* session_manager.rs 259-266: force clearing *)
      match sm_all s !! sid with
      | Some x =>
          match ss_try x with
          | TWait cid old since =>
              if since + WAIT <=? sm_now s
              then
                (put sid (with_try (TClear cid (sm_now s)) x)
                   (with_sessions (delete cid (sm_sessions s))
                      (with_prov
                         (filter (λ kv : N * N, carries s cid kv.2 = false)
                            (sm_prov s))
                         (with_resv (delete cid (sm_resv s)) s))),
                 OCleared cid)
              else (s, ONone)
          | _ => (s, ONone)
          end
      | None => (s, ONone)
      end
  | ECommit sid =>
      (* preconnect_packet.rs 118-170 *)
      match sm_all s !! sid with
      | Some x =>
          match ss_try x with
          | TClear cid _ =>
              (put sid (with_try TNone (with_cid cid x))
                 (with_resv (delete cid (sm_resv s)) s), ONone)
          | _ => (s, ONone)
          end
      | None => (s, ONone)
      end
  | EFail sid =>
      (* preconnect_packet.rs 172-188: bad SYN or unknown account *)
      match sm_all s !! sid with
      | Some x =>
          match ss_try x with
          | TClear cid _ =>
              (put sid (with_try TNone x)
                 (with_resv (delete cid (sm_resv s)) s), ONone)
          | _ => (s, ONone)
          end
      | None => (s, ONone)
      end
  | EAbandon sid =>
      (* the task is dropped, or the account look-up fails with an error
         (preconnect_packet.rs 105): nothing is released *)
      match sm_all s !! sid with
      | Some x => (put sid (with_try TNone x) s, ONone)
      | None => (s, ONone)
      end
  | EUpgrade sid =>
      (* connect_packet.rs 166; session_manager.rs 953-975 *)
      match sm_all s !! sid with
      | Some x =>
          match ss_cid x with
          | Some cid =>
              if bool_decide (ss_state x = Provisional) then
                match sm_prov s !! ss_addr x with
                | Some entry =>
                    (put sid (with_state Upgraded x)
                       (with_sessions (<[cid := entry]> (sm_sessions s))
                          (with_prov (delete (ss_addr x) (sm_prov s)) s)),
                     ONone)
                | None => (s, ONone)
                end
              else (s, ONone)
          | None => (s, ONone)
          end
      | None => (s, ONone)
      end
  | EConnected sid =>
      (* connect_packet.rs 174-207 *)
      match sm_all s !! sid with
      | Some x =>
          match ss_cid x with
          | Some cid =>
              if bool_decide (ss_state x = Upgraded)
              then (put sid (with_state Connected x)
                      (with_layer ({[cid]} ∪ sm_layer s) s), ONone)
              else (s, ONone)
          | None => (s, ONone)
          end
      | None => (s, ONone)
      end
  | EDisc sid =>
      (* session.rs 950, 974, 980, 2469, 2528; disconnect_packet.rs 84, 112 *)
      match sm_all s !! sid with
      | Some x => (put sid (with_state Disconnecting x) s, ONone)
      | None => (s, ONone)
      end
  | EClear sid =>
      (* session_manager.rs 538-551 *)
      match sm_all s !! sid with
      | Some x =>
          if bool_decide (ss_phase x = Running) then
            (put sid (with_phase Cleared (with_state Disconnecting x))
               (clear_prov (clear_session s x) x), ONone)
          else (s, ONone)
      | None => (s, ONone)
      end
  | EDone sid =>
      (* session_manager.rs 582-590 and 660 *)
      match sm_all s !! sid with
      | Some x =>
          if bool_decide (ss_phase x = Cleared) then
            (put sid (with_phase Gone (with_listener false x))
               (with_tasks
                  (match ss_cid x with
                   | Some cid => sm_tasks s ++ [cid]
                   | None => sm_tasks s
                   end) s), ONone)
          else (s, ONone)
      | None => (s, ONone)
      end
  | ERegFail sid =>
      (* register_packet.rs 317-320 *)
      match sm_all s !! sid with
      | Some x => (clear_prov s x, ONone)
      | None => (s, ONone)
      end
  | ETask cid =>
      (* peer_layer.rs 185-197 *)
      if bool_decide (cid ∈ sm_tasks s)
      then (with_tasks (remove1 cid (sm_tasks s))
              (with_layer (sm_layer s ∖ {[cid]}) s), ONone)
      else (s, ONone)
  end.

(** The run of a list of events, with what each of them answered. *)
Fixpoint sm_run (s : mgr) (es : list sm_event)
  : mgr * list (N * sm_event * sm_out) :=
  match es with
  | [] => (s, [])
  | e :: es =>
      let '(s', o) := sm_step s e in
      let '(s'', h) := sm_run s' es in
      (s'', (sm_now s, e, o) :: h)
  end.
