(** The peer commands of a client: what the user asks for, and what it does with the signals the server hands it.

    citadel_proto/src/proto/session.rs 2101-2253 ([dispatch_peer_command]),
    citadel_proto/src/proto/packet_processor/peer/peer_cmd_packet.rs 137-1022 (the client's half of [process_peer_cmd]),
    citadel_proto/src/proto/state_container/virtual_connections.rs 131-318 ([create_virtual_connection]),
    citadel_proto/src/proto/peer/p2p_conn_handler.rs 394-459 (the end of a direct stream),
    citadel_proto/src/proto/peer/channel.rs 312-335 (the receiving half is dropped),
    citadel_proto/src/proto/packet_processor/primary_group_packet.rs 487-528 ([get_orientation_safe_ratchet]).

    Simplifications.  Sessions are connected and the stream to the server takes every packet.  Peers of other
    servers (ExternalGroupPeer), the UDP channels, the WebRTC signals, the hole puncher and file-transfer flags are
    left out: a channel reaches the kernel whether or not the hole is punched (native_io_platform.rs 104-164).
    The key exchange is abstract: the asking side draws a number [x], the answering side a number [y], both mix in
    their session password [w], the key is the triple; the asking side can tell from the answer whether [x] and [w]
    are its own ([stage1_alice] fails otherwise), the answering side learns nothing more before its channel is made.
    Constructors can always be made.  The handlers change the state of the session in the order in which the packets arrive:
    their first await comes after the change. *)
From stdpp Require Import prelude gmap.
Local Open Scope N_scope.

(** original session cid, original target cid; citadel_types/src/proto/mod.rs 482-521 *)
Notation conn := (N * N)%type.
Definition reverse (cn : conn) : conn := (cn.2, cn.1).

(** the numbers of the two sides and the password *)
Notation skey := (N * N * N)%type.

(** what is inside R::Constructor *)
Inductive ctor := Asking (x : N) | Answering (k : skey).
Global Instance ctor_eq_dec : EqDecision ctor.
Proof. solve_decision. Defined.

(** state_subcontainers/peer_kem_state_container.rs 40-77 *)
Record kem := mk_kem { km_ctor : option ctor; km_set : N; km_pw : N; km_id : N }.

(** state_container/mod.rs, VirtualConnection; [vl_version]: the newest version of the ratchet *)
Record vlink := mk_vlink { vl_id : N; vl_key : skey; vl_active : bool; vl_version : N }.

Record client := mk_client {
  cl_cid : N;
  cl_links : gmap N vlink;               (* active_virtual_connections, by peer *)
  cl_stale : gmap N (skey * N);          (* stale_p2p_ratchets: key and version *)
  cl_kems : gmap N kem;                  (* peer_kem_states *)
  cl_tries : gmap N (N * N);             (* outgoing_peer_connect_attempts: ticket and settings *)
  cl_pws : gmap N N;                     (* session_passwords *)
  cl_peers : gmap N (gmap N N) }.        (* the accounts on this machine and their peers, with usernames *)

Definition with_links (c : client) l := mk_client (cl_cid c) l (cl_stale c) (cl_kems c) (cl_tries c) (cl_pws c) (cl_peers c).
Definition with_stale (c : client) s := mk_client (cl_cid c) (cl_links c) s (cl_kems c) (cl_tries c) (cl_pws c) (cl_peers c).
Definition with_kems (c : client) k := mk_client (cl_cid c) (cl_links c) (cl_stale c) k (cl_tries c) (cl_pws c) (cl_peers c).
Definition with_tries (c : client) t := mk_client (cl_cid c) (cl_links c) (cl_stale c) (cl_kems c) t (cl_pws c) (cl_peers c).
Definition with_pws (c : client) p := mk_client (cl_cid c) (cl_links c) (cl_stale c) (cl_kems c) (cl_tries c) p (cl_peers c).
Definition with_peers (c : client) p := mk_client (cl_cid c) (cl_links c) (cl_stale c) (cl_kems c) (cl_tries c) (cl_pws c) p.

(** PeerSignal.  A key of a stage is [None] if it does not deserialise; [nat]: the server has filled in the NAT information *)
Inductive csig :=
| GDisconnect (cn : conn) (token : option N) (note : bool)     (* [note]: there is a disconnect_response *)
| GDeregistered (cn : conn)
| GRegister (cn : conn) (resp : option (option N))              (* Some (Some u): accepted by user u; Some None: any other answer *)
| GConnect (cn : conn) (resp : option bool) (set : N)
| GStage0 (cn : conn) (x : option N) (set id : N)
| GStage1 (cn : conn) (k : option skey) (nat : bool) (id : N)
| GStage2 (cn : conn) (nat : bool)
| GError (cn : conn)
| GOther (n : N).                                               (* what is only passed on to the kernel *)

Inductive cout :=
| ToKernel (tk : N) (s : csig)                      (* NodeResult::PeerEvent *)
| Failed (tk : N)                                   (* NodeResult::ConnectFail *)
| Channel (tk this peer id : N) (k : skey)          (* NodeResult::PeerChannelCreated *)
| ToServer (tk : N) (s : csig).

(** PreSharedKey::default() *)
Definition no_password : N := 0.
Definition password_for (c : client) (p : N) : N := default no_password (cl_pws c !! p).

(** virtual_connections.rs 131-318.  [None]: "The PSK was not found!" (208-211); [Some None]: the duplicate of a live
    connection (295-309) *)
Definition create_link (c : client) (p id : N) (k : skey) : option (option client) :=
  match cl_pws c !! p with
  | None => None
  | Some _ =>
      if match cl_links c !! p with Some v => vl_active v | None => false end then Some None
      else Some (Some (with_links (with_stale c (delete p (cl_stale c))) (<[p := mk_vlink id k true 0]> (cl_links c))))
  end.

(** which ticket the channel gets, 717-733 and 887-902 *)
Definition channel_ticket (c : client) (p tk : N) : N := match cl_tries c !! p with Some (t, _) => t | None => tk end.

(** the connection is taken away, its ratchet kept: 158-168; p2p_conn_handler.rs 425-433 *)
Definition drop_link (c : client) (p : N) : client :=
  match cl_links c !! p with
  | Some v => with_links (with_stale c (<[p := (vl_key v, vl_version v)]> (cl_stale c))) (delete p (cl_links c))
  | None => c
  end.

(** of the two accounts in a signal, the one that is not this client's, 145-154 *)
Definition other_party (me : N) (cn : conn) : N := if cn.1 =? me then cn.2 else cn.1.

(** a signal from the server; [rnd], [id]: fresh numbers; [None]: a panic *)
Definition on_signal (c : client) (tk rnd id : N) (s : csig) : option (client * list cout) :=
  match s with
  | GDisconnect cn token _ =>                                                        (* 140-177 *)
      let target := other_party (cl_cid c) cn in
      let stale := match token, cl_links c !! target with
                   | Some t, Some v => negb (vl_id v =? t)
                   | _, _ => false
                   end in
      if stale then Some (c, []) else Some (drop_link c target, [ToKernel tk s])
  | GDeregistered cn =>                                                              (* 189-213 *)
      match cl_peers c !! cl_cid c with
      | None => Some (c, [])                                                         (* the error of deregister_p2p_as_client *)
      | Some l => Some (with_peers c (<[cl_cid c := delete cn.2 l]> (cl_peers c)), [ToKernel tk s])
      end
  | GRegister cn (Some (Some u)) =>                                                  (* 215-270; account_manager.rs 424-435 *)
      match cl_peers c !! cn.2 with
      | Some l => Some (with_peers c (<[cn.2 := <[cn.1 := u]> l]> (cl_peers c)), [ToKernel tk s])
      | None => Some (c, [ToKernel tk (GError (reverse cn))])
      end
  | GConnect cn (Some true) set =>                                                   (* 272-383 *)
      let k := mk_kem (Some (Asking rnd)) set (password_for c cn.1) id in
      Some (with_kems c (<[cn.1 := k]> (cl_kems c)),
            [ToServer tk (GStage0 (cn.2, cn.1) (Some rnd) set id)])
  | GConnect cn (Some false) _ =>                                                    (* 389-400, and on to 1024-1034 *)
      Some (c, [ToKernel tk (GError (reverse cn)); ToKernel tk s])
  | GStage0 cn x set cid =>                                                          (* 408-506 *)
      match x with
      | None => Some (c, [])
      | Some x =>
          let busy := match cl_kems c !! cn.1 with Some k => bool_decide (is_Some (km_ctor k)) | None => false end in
          if busy && (cn.2 <? cn.1) then Some (c, [])
          else
            let w := password_for c cn.1 in
            Some (with_kems c (<[cn.1 := mk_kem (Some (Answering (x, rnd, w))) set w cid]> (cl_kems c)),
                  [ToServer tk (GStage1 (reverse cn) (Some (x, rnd, w)) false cid)])
      end
  | GStage1 cn k true _ =>                                                           (* 508-766 *)
      let p := cn.1 in
      match cl_kems c !! p with
      | None => Some (c, [])
      | Some m =>
          let c1 := with_kems c (delete p (cl_kems c)) in
          match km_ctor m, k with
          | Some ct, Some (x, y, w) =>
              if bool_decide (ct = Asking x) && (w =? km_pw m) then
                match create_link c1 p (km_id m) (x, y, w) with
                | None => None
                | Some None => Some (c1, [])
                | Some (Some c2) =>
                    let c3 := with_kems c2 (<[p := mk_kem None (km_set m) (km_pw m) (km_id m)]> (cl_kems c2)) in
                    Some (with_tries c3 (delete p (cl_tries c3)),
                          [ToServer tk (GStage2 (reverse cn) false);
                           Channel (channel_ticket c3 p tk) cn.2 p (km_id m) (x, y, w)])
                end
              else Some (c1, [Failed tk; ToServer tk (GError (reverse cn))])
          | _, _ => Some (c1, [])
          end
      end
  | GStage2 cn true =>                                                               (* 768-934 *)
      let p := cn.1 in
      match cl_kems c !! p with
      | None => Some (c, [])
      | Some m =>
          let c1 := with_kems c (<[p := mk_kem None (km_set m) (km_pw m) (km_id m)]> (cl_kems c)) in
          match km_ctor m with
          | Some (Answering k) =>
              match create_link c1 p (km_id m) k with
              | None => None
              | Some None => Some (c1, [])
              | Some (Some c2) =>
                  Some (with_tries c2 (delete p (cl_tries c2)),
                        [Channel (channel_ticket c2 p tk) cn.2 p (km_id m) k])
              end
          | _ => Some (c1, [])
          end
      end
  | GStage1 _ _ false _ | GStage2 _ false => Some (c, [])                            (* 941-944 *)
  | GConnect cn None set =>                                                          (* 948-1005 *)
      let p := cn.1 in
      match cl_tries c !! p with
      | Some _ =>
          if cl_cid c <? p then
            Some (with_kems c (<[p := mk_kem None set (password_for c p) 0]> (cl_kems c)),
                  [ToServer tk (GConnect (reverse cn) (Some true) set)])
          else Some (c, [])
      | None => Some (c, [ToKernel tk s])
      end
  | GRegister _ _ | GError _ | GOther _ => Some (c, [ToKernel tk s])                 (* 1024-1034 *)
  end.

Inductive cevent :=
| UConnect (cn : conn) (tk set : N) (pw : option N) (resp : option bool)   (* the user asks ([None]) or answers *)
| UDisconnect (cn : conn) (tk : N) (token : option N)
| Signal (tk rnd id : N) (s : csig)
| Dropped (p id : N)               (* the user lets go of the channel *)
| StreamEnded (p id : N)           (* the direct stream of a connection ends *)
| Rekeyed (p : N)                  (* the ratchet of a connection moves on *)
| UPass (tk : N) (s : csig).       (* any other command of the user: registration, deregistration, … *)

Definition on_event (c : client) (e : cevent) : option (client * list cout) :=
  match e with
  | UConnect cn tk set pw resp =>                                          (* session.rs 2196-2237 *)
      let c1 := with_pws c (<[cn.2 := default no_password pw]> (cl_pws c)) in
      Some (with_tries c1 (<[cn.2 := (tk, set)]> (cl_tries c1)), [ToServer tk (GConnect cn resp set)])
  | UDisconnect cn tk token =>                                             (* session.rs 2124-2169 *)
      match cl_links c !! cn.2 with
      | None => Some (c, [ToKernel tk (GDisconnect cn token true)])
      | Some v =>
          if match token with Some t => negb (vl_id v =? t) | None => false end then Some (c, [])
          else Some (c, [ToServer tk (GDisconnect cn token false)])
      end
  | Signal tk rnd id s => on_signal c tk rnd id s
  | Dropped p id =>                                                        (* channel.rs 323 *)
      match cl_links c !! p with
      | Some v => if vl_id v =? id
                  then Some (with_links c (<[p := mk_vlink (vl_id v) (vl_key v) false (vl_version v)]> (cl_links c)), [])
                  else Some (c, [])
      | None => Some (c, [])
      end
  | StreamEnded p id =>                                                    (* p2p_conn_handler.rs 417-459 *)
      match cl_links c !! p with
      | Some v =>
          if vl_id v =? id then
            let c1 := drop_link c p in
            match cl_kems c1 !! p with
            | Some m => if km_id m =? id
                        then Some (with_tries (with_kems c1 (delete p (cl_kems c1))) (delete p (cl_tries c1)), [])
                        else Some (c1, [])
            | None => Some (c1, [])
            end
          else Some (c, [])
      | None => Some (c, [])
      end
  | Rekeyed p =>
      match cl_links c !! p with
      | Some v => Some (with_links c (<[p := mk_vlink (vl_id v) (vl_key v) (vl_active v) (vl_version v + 1)]> (cl_links c)), [])
      | None => Some (c, [])
      end
  | UPass tk s => Some (c, [ToServer tk s])                                (* session.rs 2239 *)
  end.

(** the keys under which a packet of peer [p] with ratchet version [v] is read, primary_group_packet.rs 487-528 *)
Definition packet_key (c : client) (p v : N) : option skey :=
  match cl_links c !! p with
  | Some l => if v <=? vl_version l then Some (vl_key l) else None
  | None => match cl_stale c !! p with
            | Some (k, w) => if w =? v then Some k else None
            | None => None
            end
  end.

Definition client_init (cid : N) (peers : gmap N (gmap N N)) : client := mk_client cid ∅ ∅ ∅ ∅ ∅ peers.

(** a run, with what each event brought forth *)
Fixpoint crun (c : client) (es : list cevent) : option (client * list (cevent * list cout)) :=
  match es with
  | [] => Some (c, [])
  | e :: rest =>
      match on_event c e with
      | None => None
      | Some (c1, os) =>
          match crun c1 rest with None => None | Some (c2, tr) => Some (c2, (e, os) :: tr) end
      end
  end.

(** Two clients and a server between them that passes handshakes on (peer_cmd_packet.rs 1089-1155) and at most
    [wd_accepts] acceptances: those for which it holds a posting (C77, C78); the others it answers with an error.
    [wd_down0], [wd_down1]: what is under way to each client, oldest first; [wd_got0], [wd_got1]: what each client has put
    out; [wd_fresh]: the next fresh number. *)
Record world := mk_world {
  wd_c0 : client; wd_c1 : client;
  wd_down0 : list (N * csig); wd_down1 : list (N * csig);
  wd_got0 : list cout; wd_got1 : list cout;
  wd_accepts : nat; wd_fresh : N }.

(** what the server passes on of what a client sends it, what it sends back, and how many acceptances are left *)
Fixpoint relay (accepts : nat) (os : list cout) : list (N * csig) * list (N * csig) * nat :=
  match os with
  | [] => ([], [], accepts)
  | ToServer tk s :: rest =>
      match s with
      | GStage0 _ _ _ _ | GError _ => let '(l, b, a) := relay accepts rest in ((tk, s) :: l, b, a)
      | GStage1 cn k _ id => let '(l, b, a) := relay accepts rest in ((tk, GStage1 cn k true id) :: l, b, a)
      | GStage2 cn _ => let '(l, b, a) := relay accepts rest in ((tk, GStage2 cn true) :: l, b, a)
      | GConnect cn (Some true) _ =>
          match accepts with
          | O => let '(l, b, a) := relay accepts rest in (l, (tk, GError cn) :: b, a)
          | S n => let '(l, b, a) := relay n rest in ((tk, s) :: l, b, a)
          end
      | _ => relay accepts rest
      end
  | _ :: rest => relay accepts rest
  end.

(** one of the clients ([true]: the first) takes the oldest signal under way to it; [None]: nothing is, or it panics *)
Definition wstep (w : world) (who : bool) : option world :=
  match (if who then wd_down0 w else wd_down1 w) with
  | [] => None
  | (tk, s) :: rest =>
      match on_signal (if who then wd_c0 w else wd_c1 w) tk (wd_fresh w) (wd_fresh w + 1) s with
      | None => None
      | Some (c, os) =>
          let '(l, b, a) := relay (wd_accepts w) os in
          Some (if who
                then mk_world c (wd_c1 w) (rest ++ b) (wd_down1 w ++ l) (wd_got0 w ++ os) (wd_got1 w) a (wd_fresh w + 2)
                else mk_world (wd_c0 w) c (wd_down0 w ++ l) (rest ++ b) (wd_got0 w) (wd_got1 w ++ os) a (wd_fresh w + 2))
      end
  end.
Fixpoint wrun (w : world) (bs : list bool) : option world :=
  match bs with [] => Some w | b :: rest => match wstep w b with Some w' => wrun w' rest | None => None end end.
