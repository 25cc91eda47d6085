(** Model of what the server does with the signals by which clients register with each
    other, connect to each other, and part.

    Source: /repo/citadel_proto/src/proto/packet_processor/peer/peer_cmd_packet.rs,
    process_signal_command_as_server (1078-1829), the functions it uses there, in
    peer/server/post_register.rs and post_connect.rs, in session_manager.rs (1279-1406,
    1506-1559, 1576-1601), and raw_primary_packet.rs, check_proxy.

    A client writes the account it acts for into the signal ([PeerConnectionType]) or the
    packet header; nothing compares that with the account of its session, so here every
    request carries both.

    Simplifications: handling one signal is one step; sending to a session succeeds, and a
    session's stream is named by its account; a session that ends takes along its own
    virtual connections and those leading to it; user names are resolved beforehand;
    security settings, passwords, UDP, NAT data and the other data of the signals are left
    out; answers are "declined" or anything else; of several postings that match, the first
    in the order of the map is found; the list of peers is a set (its multiplicities are in
    Accounts_Model); registering is done at once, not by a task.  SignalError and
    WebRtcSignaling are left out. *)
From Coq Require Import ZifyBool ZifyNat ZifyN.
From stdpp Require Import prelude gmap.
From Verif Require Import Postings_Model.
Local Open Scope N_scope.

(** PeerConnectionType::LocalGroupPeer: the acting account and its peer *)
Definition conn : Type := N * N.
Definition flip (cn : conn) : conn := (cn.2, cn.1).

(** the signals the server sends or keeps; the answer: [Some false] is Decline *)
Inductive psig :=
| SRegister (cn : conn) (resp : option bool)
| SConnect (cn : conn) (resp : option bool)
| SDereg (cn : conn)
| SDisconnect (cn : conn)
| SMutuals (l : list N)
| SKex (cn : conn) (x : N)
| SError (cn : conn)
| SReceived.
(** a posting: the signal, and to which session it goes back when it times out *)
Definition kept : Type := psig * option N.

(** the requests of a client *)
Inductive preq :=
| QRegister (cn : conn) (resp : option bool)
| QConnect (cn : conn) (resp : option bool)
| QDeregister (cn : conn)
| QDisconnect (cn : conn)
| QMutuals (a : N)
| QKex (cn : conn) (x : N).

(** a virtual connection as the server has it: whom it says it joins, and whose stream it holds *)
Record vconn := mk_vconn { vc_label : conn; vc_dest : N; vc_active : bool }.

Record pserver := mk_pserver {
  pv_accounts : gset N;
  pv_sessions : gset N;
  pv_peers : gset conn;                 (* both directions *)
  pv_layer : layer kept;
  pv_mapped : gmap conn N;              (* simultaneous_ticket_mappings: (account, ticket) *)
  pv_vconns : gmap conn vconn }.        (* (account of the session, peer) *)

Inductive peffect :=
| PSent (to ticket : N) (s : psig)
| PMailed (to : N) (s : psig)
| PForward (to x : N)                   (* a packet passed on *)
| PStuck (c : N).                       (* the handler waits for a lock it holds itself *)

Definition with_layer (s : pserver) (l : layer kept) : pserver :=
  mk_pserver (pv_accounts s) (pv_sessions s) (pv_peers s) l (pv_mapped s) (pv_vconns s).
Definition with_peers (s : pserver) (p : gset conn) : pserver :=
  mk_pserver (pv_accounts s) (pv_sessions s) p (pv_layer s) (pv_mapped s) (pv_vconns s).
Definition with_vconns (s : pserver) (v : gmap conn vconn) : pserver :=
  mk_pserver (pv_accounts s) (pv_sessions s) (pv_peers s) (pv_layer s) (pv_mapped s) v.
Definition with_mapped (s : pserver) (m : gmap conn N) : pserver :=
  mk_pserver (pv_accounts s) (pv_sessions s) (pv_peers s) (pv_layer s) m (pv_vconns s).

Definition timeout : N := 3600.

(** check_simultaneous_register, 444-460 *)
Definition seeks_register (h : N) (k : kept) : bool :=
  match k.1 with SRegister cn None => cn.2 =? h | _ => false end.
(** check_simultaneous_connect, 464-481 *)
Definition seeks_connect (h : N) (k : kept) : bool :=
  match k.1 with SConnect cn _ => cn.2 =? h | _ => false end.
(** check_simultaneous_deregister, 483-497 *)
Definition seeks_dereg (h : N) (k : kept) : bool :=
  match k.1 with SDereg cn => cn.2 =? h | _ => false end.
(** remove_pending_post_connect_between, 578-626 *)
Definition between (a b : N) (k : kept) : bool :=
  match k.1 with SConnect cn _ => bool_decide (cn = (a, b) ∨ cn = (b, a)) | _ => false end.

(** memory backend and client_account.rs 397-444; self-registration never returns (C37_self_registration_hangs) *)
Definition register_p2p (s : pserver) (a b : N) : pserver * list peffect :=
  if bool_decide (a ∈ pv_accounts s ∧ b ∈ pv_accounts s)
  then if a =? b then (s, [PStuck a]) else (with_peers s ({[(a, b); (b, a)]} ∪ pv_peers s), [])
  else (s, []).
Definition deregister_p2p (s : pserver) (a b : N) : option pserver :=
  if bool_decide (a ∈ pv_accounts s ∧ b ∈ pv_accounts s ∧ (a, b) ∈ pv_peers s)
  then Some (with_peers s (pv_peers s ∖ {[(a, b); (b, a)]})) else None.

(** route_signal_primary, session_manager.rs 1341-1406; peer_cmd_packet.rs 1902-2012 *)
Definition route_signal (s : pserver) (c owner target tk : N) (sg : psig) : pserver * list peffect :=
  if owner =? target then (s, [PSent c tk (SError (c, target))])
  else if bool_decide (target ∈ pv_accounts s) then
    let s' := with_layer s (ly_insert (pv_layer s) owner tk timeout (sg, Some c)) in
    if bool_decide (target ∈ pv_sessions s) then (s', [PSent target tk sg]) else (s', [PMailed target sg])
  else (s, [PSent c tk (SError (c, target))]).

(** route_signal_response and route_signal_response_primary, 2015-2078 and session_manager.rs 1506-1559:
    [fin] is what is done once the signal is on its way; the reply to the sender comes last *)
Definition route_response (s : pserver) (c target tk : N) (sg : psig) (fin : pserver → pserver * list peffect)
  : option (pserver * list peffect * list peffect) :=
  match ly_remove (pv_layer s) target tk with
  | None => None
  | Some (_, None) => Some (s, [], [PSent c tk (SError (c, target))])
  | Some (l, Some _) =>
      let s1 := with_layer s l in
      if bool_decide (target ∈ pv_sessions s) then
        let '(s2, es) := fin s1 in Some (s2, PSent target tk sg :: es, [PSent c tk SReceived])
      else Some (s1, [], [PSent c tk (SError (c, target))])
  end.

(** post_register.rs 49-85 *)
Definition answer_register (s : pserver) (c : N) (cn : conn) (resp : bool) (tk sess target : N) :=
  route_response s c target tk (SRegister cn (Some resp)) (λ s1, if resp then register_p2p s1 sess target else (s1, [])).
(** post_connect.rs 52-104: also when the answer is Decline; one lock twice if both ends are one session *)
Definition answer_connect (s : pserver) (c : N) (cn : conn) (resp : bool) (tk sess target : N) :=
  route_response s c target tk (SConnect cn (Some resp)) (λ s1,
    if c =? target then (s1, [PStuck c])
    else (with_vconns s1 (<[(target, sess) := mk_vconn (target, sess) c true]>
                         (<[(c, target) := mk_vconn (sess, target) target true]> (pv_vconns s1))), [])).

Definition set_inactive (v : gmap conn vconn) (k : conn) : gmap conn vconn :=
  match v !! k with Some x => <[k := mk_vconn (vc_label x) (vc_dest x) false]> v | None => v end.

(** [c]: the account of the session; [h]: the account in the packet header; [tk]: the ticket; [None]: a panic *)
Definition phandle (s : pserver) (c h tk : N) (q : preq) : option (pserver * list peffect) :=
  match q with
  | QRegister (x0, target) (Some r) =>                                 (* 1177-1190 *)
      match answer_register s c (x0, target) r tk h target with
      | None => None
      | Some (s', es, reply) => Some (s', es ++ reply)
      end
  | QRegister (_, target) None =>                                      (* 1191-1285 *)
      match ly_find (pv_layer s) target (seeks_register h) with
      | Some tk' =>
          let s1 := with_mapped s (<[(h, tk') := tk]> (pv_mapped s)) in
          match answer_register s1 c (h, target) true tk' h target with
          | None => None
          | Some (s', es, _) => Some (s', es ++ [PSent c tk (SRegister (target, h) (Some true))])
          end
      | None => Some (route_signal s c h target tk (SRegister (h, target) None))
      end
  | QConnect (sess, target) (Some r) =>                                (* 1418-1434 *)
      match answer_connect s c (sess, target) r tk sess target with
      | None => None
      | Some (s', es, reply) => Some (s', es ++ reply)
      end
  | QConnect (sess, target) None =>                                    (* 1435-1489 *)
      match ly_find (pv_layer s) target (seeks_connect sess) with
      | Some tk' =>
          let s1 := with_mapped s (<[(sess, tk') := tk]> (pv_mapped s)) in
          match answer_connect s1 c (sess, target) true tk' sess target with
          | None => None
          | Some (s', es, _) => Some (s', es)
          end
      | None => Some (route_signal s c sess target tk (SConnect (sess, target) None))
      end
  | QDeregister (sess, target) =>                                      (* 1299-1398 *)
      let alert := if bool_decide (target ∈ pv_sessions s) then [PSent target tk (SDereg (target, sess))] else [] in
      match ly_find (pv_layer s) target (seeks_dereg sess) with
      | Some _ => Some (s, alert ++ [PSent c tk (SDereg (sess, target))])
      | None =>
          match deregister_p2p s sess target with
          | Some s1 =>
              Some (with_layer s1 (ly_insert (pv_layer s1) sess tk timeout (SDereg (sess, target), None)),
                    alert ++ [PSent c tk (SDereg (sess, target))])
          | None => Some (s, [PSent c tk (SError (sess, target))])
          end
      end
  | QDisconnect (sess, target) =>                                      (* 1502-1575; session_manager.rs 1279-1317 *)
      match ly_purge (pv_layer s) sess (between sess target) with
      | None => None
      | Some (l1, _) =>
          match ly_purge l1 target (between sess target) with
          | None => None
          | Some (l2, _) =>
              let s1 := with_layer s l2 in
              let done := [PSent c tk (SDisconnect (sess, target))] in
              match pv_vconns s1 !! (c, target) with
              | None => Some (s1, done)
              | Some _ =>
                  let s2 := with_vconns s1 (set_inactive (pv_vconns s1) (c, target)) in
                  if (sess =? target) || negb (bool_decide (target ∈ pv_sessions s)) then Some (s2, done)
                  else match pv_vconns s2 !! (target, sess) with
                       | None => Some (s2, done)
                       | Some _ => Some (with_vconns s2 (set_inactive (pv_vconns s2) (target, sess)),
                                         PSent target tk (SDisconnect (sess, target)) :: done)
                       end
              end
          end
      end
  | QMutuals a =>                                                      (* 1637-1678 *)
      Some (s, [PSent c tk (SMutuals (elements (set_map (D := gset N) snd (filter (λ p : conn, p.1 = a) (pv_peers s)))))])
  | QKex (sess, target) x =>                                           (* 1089-1155 *)
      if c =? target then Some (s, [])
      else if bool_decide (target ∈ pv_sessions s) then Some (s, [PSent target tk (SKex (sess, target) x)])
      else Some (s, [PSent c tk (SError (c, target))])
  end.

Inductive pevent :=
| PReq (c h tk : N) (q : preq)
| PProxy (c target x : N)             (* a packet for a peer: check_proxy *)
| PConnect (c : N)
| PEnd (c : N)
| PTick (d : N)
| PExpire (k : N).

Definition pstep (s : pserver) (e : pevent) : option (pserver * list peffect) :=
  match e with
  | PReq c h tk q => if bool_decide (c ∈ pv_sessions s) then phandle s c h tk q else Some (s, [])
  | PProxy c target x =>
      if bool_decide (c ∈ pv_sessions s ∧ c ≠ target) then
        Some (s, match pv_vconns s !! (c, target) with Some v => [PForward (vc_dest v) x] | None => [] end)
      else Some (s, [])
  | PConnect c =>
      if bool_decide (c ∉ pv_accounts s) then Some (s, []) else
      Some (mk_pserver (pv_accounts s) ({[c]} ∪ pv_sessions s) (pv_peers s) (ly_register (pv_layer s) c) (pv_mapped s) (pv_vconns s), [])
  | PEnd c =>
      Some (mk_pserver (pv_accounts s) (pv_sessions s ∖ {[c]}) (pv_peers s) (ly_shutdown (pv_layer s) c) (pv_mapped s)
              (filter (λ kv : conn * vconn, kv.1.1 ≠ c ∧ vc_dest kv.2 ≠ c) (pv_vconns s)), [])
  | PTick d =>
      Some (with_layer s (mk_layer (ly_map (pv_layer s)) (ly_delays (pv_layer s)) (ly_next (pv_layer s)) (ly_now (pv_layer s) + d)), [])
  | PExpire k =>
      let '(l, o) := ly_expire (pv_layer s) k in
      Some (with_layer s l, match o with Some (TimedOut _ t (sg, Some c)) => [PSent c t sg] | _ => [] end)
  end.
Fixpoint prun (s : pserver) (es : list pevent) : option (pserver * list peffect) :=
  match es with
  | [] => Some (s, [])
  | e :: rest =>
      match pstep s e with
      | None => None
      | Some (s1, x) => match prun s1 rest with None => None | Some (s2, y) => Some (s2, x ++ y) end
      end
  end.
Definition pserver_init (accounts : gset N) : pserver := mk_pserver accounts ∅ ∅ layer_init ∅ ∅.
