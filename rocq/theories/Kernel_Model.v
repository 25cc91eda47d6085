(** Model of the way from a request to its answer: NodeRemote, the request loop of the
    node, the kernel executor with its callback handler, and the waiting calls of the SDK.

    Source: /repo/citadel_proto/src/kernel/kernel_communicator.rs (KC), kernel_executor.rs
    (KE), proto/node_result.rs (NR), proto/node_request.rs (NQ), proto/node.rs (NO),
    proto/remote.rs (RM), proto/misc/threading.rs (TH), proto/auth.rs,
    /repo/citadel_sdk/src/remote_ext.rs (EX).

    Simplifications: results carry only what routing and the calls of the SDK look at; what
    the protocol does with an accepted request is left open, it may produce any results at
    any time; the HashMap of notifiers is a list, and which of several fitting entries its
    iteration meets first is arbitrary; the loop starts the futures of the messages in the
    order of the messages (async_stream and FuturesUnordered keep it); a handler runs until
    it is said to have ended; channels are unbounded, sending to a live node does not fail;
    the channel to the kernel is not closed while the executor runs; the time limits of the
    calls, such as that of connect_to_peer (EX 849-853), are left out. *)
From stdpp Require Import prelude.

(** CallbackKey, KC 57-60 *)
Record ckey := mk_ckey { k_ticket : N; k_cid : option N }.
Global Instance ckey_eq_dec : EqDecision ckey.
Proof. solve_decision. Defined.

(** What is inside a PeerEvent, as far as the SDK tells the signals apart. *)
Inductive peer_signal :=
| SignalError | SignalReceived
| RegisteredPeers                         (* GetRegisteredPeers with the list *)
| MutualPeers                             (* GetMutuals with the list *)
| ConnectRefused                          (* PostConnect, timed out or declined *)
| RegisterResponse                        (* PostRegister with Accept, Decline or Timeout *)
| DeregistrationSuccess
| DisconnectResponse                      (* Disconnect with a response *)
| OtherSignal.

(** NodeResult, NR 211-248 *)
Inductive nresult :=
| RegisterOkay (t cid : N)
| RegisterFailure (t : N)
| DeRegistration (cid : N) (t : option N) (success : bool)
| ConnectSuccess (t cid : N)
| ConnectFail (t : N) (cid : option N)
| ReKeyResult (t cid : N) (failed : bool)
| ReVFS (t cid : N) (failed : bool)
| OutboundRequestRejected (t : N)
| ObjectTransferHandle (t cid : N)
| MailboxDelivery (cid : N) (t : option N)
| PeerEvent (e : peer_signal) (t cid : N)
| GroupChannelCreated (t cid : N)
| GroupEvent (cid t : N) (list_response : bool)
| Disconnect (t : N) (cid : option N) (success : bool)
| InternalServerError (t : option N) (cid : option N)
| PeerChannelCreated (t cid : N)
| SessionList (t : N)
| Shutdown.

(** NodeResult::callback_key, NR 289-381 *)
Definition callback_key (r : nresult) : option ckey :=
  match r with
  | RegisterOkay t c | ConnectSuccess t c | ObjectTransferHandle t c | PeerEvent _ t c | GroupEvent c t _
  | PeerChannelCreated t c | GroupChannelCreated t c | ReKeyResult t c _ | ReVFS t c _ => Some (mk_ckey t (Some c))
  | RegisterFailure t | OutboundRequestRejected t | SessionList t => Some (mk_ckey t None)
  | DeRegistration c t _ | MailboxDelivery c t => match t with Some t => Some (mk_ckey t (Some c)) | None => None end
  | ConnectFail t c | Disconnect t c _ => Some (mk_ckey t c)
  | InternalServerError t c => match t with Some t => Some (mk_ckey t c) | None => None end
  | Shutdown => None
  end.

(** NodeRequest, NQ 104-129; of each the session it names *)
Inductive request :=
| RRegister
| RPeer (cid : N)
| RDeregister (cid : N)
| RConnect (id : option N)                (* the account, if it is given by its number: auth.rs 85-96 *)
| RReKey (cid : N)
| RSend (cid : N)
| RPull (cid : N)
| RDelete (cid : N)
| RGroup (cid : N)
| RDisconnect (cid : N)
| RSessions
| RShutdown.

(** NodeRequest::session_cid, NQ 132-154 *)
Definition session_cid (r : request) : option N :=
  match r with
  | RRegister | RSessions | RShutdown => None
  | RConnect id => id
  | RPeer c | RDeregister c | RReKey c | RSend c | RPull c | RDelete c | RGroup c | RDisconnect c => Some c
  end.

(** search_for_value, KC 62-108: does the entry with key [e] fit the received key? *)
Definition fits (received e : ckey) : bool :=
  (k_ticket received =? k_ticket e)%N &&
  match k_cid e with
  | Some expected => match k_cid received with Some c => (expected =? c)%N | None => false end
  | None => true
  end.

(** KernelStreamSubscription, KC 211-215 *)
Record sub := mk_sub {
  s_key : ckey;
  s_open : bool;                          (* the receiver exists *)
  s_got : list nresult }.                 (* all that was put into its channel *)

(** the future of the node, NO 238-275 *)
Inductive server :=
| SRun                                    (* 239-258 *)
| SClosing                                (* Shutdown has been sent: 260-269 *)
| SDone.                                  (* 273 *)

(** what execute() returns *)
Inductive xres := XOk | XStart | XHandler | XSend | XStop | XServer.

(** kernel_inner_loop, KE 168-233 *)
Inductive kernel :=
| KRun (clean : bool)                     (* the select, 222-225; [clean]: clean_stop_tx was used *)
| KStopping (res : xres)                  (* 228 *)
| KOnStop (res : xres)                    (* 230 *)
| KDone (res : xres).                     (* 232 *)

Record kworld := mk_kworld {
  kw_limit : option nat;                  (* max_concurrency *)
  kw_map : list (ckey * nat);             (* the notifiers, and the subscription each belongs to *)
  kw_subs : list sub;
  kw_requests : list (N * request);
  kw_results : list nresult;
  kw_running : list (nresult * bool);     (* calls of on_node_event_received; [true]: failed, in shutdown(): KE 209 *)
  kw_server : server;
  kw_kernel : kernel;
  kw_out : option xres }.                 (* what execute() has returned *)

Definition set_map x w := mk_kworld (kw_limit w) x (kw_subs w) (kw_requests w) (kw_results w) (kw_running w) (kw_server w) (kw_kernel w) (kw_out w).
Definition set_subs x w := mk_kworld (kw_limit w) (kw_map w) x (kw_requests w) (kw_results w) (kw_running w) (kw_server w) (kw_kernel w) (kw_out w).
Definition set_requests x w := mk_kworld (kw_limit w) (kw_map w) (kw_subs w) x (kw_results w) (kw_running w) (kw_server w) (kw_kernel w) (kw_out w).
Definition set_results x w := mk_kworld (kw_limit w) (kw_map w) (kw_subs w) (kw_requests w) x (kw_running w) (kw_server w) (kw_kernel w) (kw_out w).
Definition set_running x w := mk_kworld (kw_limit w) (kw_map w) (kw_subs w) (kw_requests w) (kw_results w) x (kw_server w) (kw_kernel w) (kw_out w).
Definition set_server x w := mk_kworld (kw_limit w) (kw_map w) (kw_subs w) (kw_requests w) (kw_results w) (kw_running w) x (kw_kernel w) (kw_out w).
Definition set_kernel x w := mk_kworld (kw_limit w) (kw_map w) (kw_subs w) (kw_requests w) (kw_results w) (kw_running w) (kw_server w) x (kw_out w).
Definition set_out x w := mk_kworld (kw_limit w) (kw_map w) (kw_subs w) (kw_requests w) (kw_results w) (kw_running w) (kw_server w) (kw_kernel w) x.
Definition emit (r : nresult) w := set_results (kw_results w ++ [r]) w.

(** the entry of the map with that key: HashMap::remove, HashMap::insert *)
Definition map_remove (k : ckey) (m : list (ckey * nat)) : list (ckey * nat) := filter (λ e, e.1 ≠ k) m.
Definition map_has (k : ckey) (m : list (ckey * nat)) : bool := existsb (λ e, bool_decide (e.1 = k)) m.

(** how the session manager takes a request *)
Inductive outcome :=
| Accepted
| NoSession                               (* there is no session with that number *)
| Refused.                                (* any other error *)

Inductive kevent :=
| Subscribe (t : N) (r : request)         (* send_callback_subscription_custom_ticket: RM 181-201; [t] is drawn by get_next_ticket *)
| Send (t : N) (r : request)              (* send, send_with_custom_ticket: RM 161-178 *)
| DropSub (i : nat)                       (* Drop for KernelStreamSubscription: KC 223-227 *)
| NodeTake (o : outcome)                  (* one round of the request loop: NO 426-656 *)
| NodeFail                                (* the listener or the peer container ends: NO 246-247, 256 *)
| NodeEmit (r : nresult)                  (* the protocol produces a result *)
| NodeDone                                (* NO 264-273 *)
| Dispatch (j : nat)                      (* the loop takes the next result: KE 195-218 *)
| HandlerEnd (i : nat) (ok : bool)        (* the [i]th call of on_node_event_received returns: KE 206 *)
| HandlerSent (i : nat)                   (* the shutdown() of a failed one has been sent: KE 209-210 *)
| StartFail                               (* on_start returns an error: KE 186, 220 *)
| CleanStop                               (* the second branch of the select: KE 224 *)
| Alerted                                 (* the node has signalled its end, or 300 ms are over: KE 228 *)
| OnStopEnd (ok : bool)                   (* on_stop returns: KE 230-232 *)
| KernelReturns                           (* TH 48 and 59 *)
| ServerReturns (ok : bool).              (* TH 49 and 60 *)

Inductive kobs :=
| OSub (i : nat) (r : nresult)            (* a result is put into the stream of the [i]th subscription *)
| OKernel (r : nresult)                   (* on_node_event_received is called *)
| OOnStop                                 (* on_stop is called *)
| OStopped                                (* on_stop has returned *)
| OReturned (res : xres).                 (* execute() returns *)

(** maybe_notify, KC 156-174: the subscription that gets the result, if any *)
Definition find_sub (j : nat) (w : kworld) (r : nresult) : option nat :=
  match callback_key r with
  | None => None
  | Some k =>
      let found := filter (λ e, fits k e.1 = true) (kw_map w) in
      match found !! (j mod length found) with
      | None => None
      | Some (_, i) => match kw_subs w !! i with Some s => if s_open s then Some i else None | None => None end
      end
  end.
Definition push (r : nresult) (s : sub) : sub := mk_sub (s_key s) (s_open s) (s_got s ++ [r]).

(** try_for_each_concurrent takes another message only below the limit; 0 stands for no limit *)
Definition room (w : kworld) : bool :=
  match kw_limit w with None | Some O => true | Some n => (length (kw_running w) <? n)%nat end.

Definition running (s : server) : bool := match s with SRun => true | _ => false end.
Definition live (w : kworld) : bool := match kw_out w with None => true | Some _ => false end.

Definition kstep (w : kworld) (e : kevent) : kworld * option kobs :=
  let same := (w, None) in
  match e with
  | Subscribe t r =>
      let k := mk_ckey t (session_cid r) in
      let i := length (kw_subs w) in
      if map_has k (kw_map w)
      then (* register_stream (KC 128-146) and insert (190-201): the entry is replaced, then the error returned; the receiver is dropped *)
        (set_map (map_remove k (kw_map w) ++ [(k, i)]) (set_subs (kw_subs w ++ [mk_sub k false []]) w), None)
      else if running (kw_server w) then
        (set_map (kw_map w ++ [(k, i)]) (set_subs (kw_subs w ++ [mk_sub k true []]) (set_requests (kw_requests w ++ [(t, r)]) w)), None)
      else (* the receiver of the requests is gone: the listener is removed again, RM 195-199 *)
        (set_subs (kw_subs w ++ [mk_sub k false []]) w, None)
  | Send t r => if running (kw_server w) then (set_requests (kw_requests w ++ [(t, r)]) w, None) else same
  | DropSub i =>
      match kw_subs w !! i with
      | Some s =>
          if s_open s
          then (set_map (map_remove (s_key s) (kw_map w)) (set_subs (<[i := mk_sub (s_key s) false (s_got s)]> (kw_subs w)) w), None)
          else same
      | None => same
      end
  | NodeTake o =>
      match kw_server w, kw_requests w with
      | SRun, (t, r) :: rest =>
          let w := set_requests rest w in
          let refuse := emit (InternalServerError (Some t) None) w in           (* send_error, NO 405-424 *)
          if bool_decide (session_cid r = Some 0%N) then (refuse, None)         (* NO 427-439 *)
          else
            (match r with
             | RShutdown => set_server SClosing (emit Shutdown w)               (* NO 652-654, 260 *)
             | RSessions => emit (SessionList t) w                              (* NO 634-650 *)
             | RDisconnect c =>                                                 (* session_manager.rs 978-1012 *)
                 match o with Accepted => w | NoSession => emit (Disconnect t (Some c) true) w | Refused => refuse end
             | _ => match o with Accepted => w | _ => refuse end
             end, None)
      | _, _ => same
      end
  | NodeFail => match kw_server w with SRun => (set_server SClosing (emit Shutdown w), None) | _ => same end
  | NodeEmit r => match r with Shutdown => same | _ => (emit r w, None) end
  | NodeDone => match kw_server w with SClosing => (set_server SDone w, None) | _ => same end
  | Dispatch j =>
      match kw_kernel w, kw_results w with
      | KRun clean, r :: rest =>
          if live w && room w then
            let w1 := set_results rest w in
            match r with
            | Shutdown => (set_kernel (KRun true) w1, None)                     (* KE 198-202 *)
            | _ =>
                match find_sub j w1 r with
                | Some i => (set_subs (alter (push r) i (kw_subs w1)) w1, Some (OSub i r))
                | None => (set_running (kw_running w1 ++ [(r, false)]) w1, Some (OKernel r))
                end
            end
          else same
      | _, _ => same
      end
  | HandlerEnd i ok =>
      match kw_kernel w, kw_running w !! i with
      | KRun _, Some (r, false) =>
          if live w
          then (set_running (if ok : bool then delete i (kw_running w) else <[i := (r, true)]> (kw_running w)) w, None)
          else same
      | _, _ => same
      end
  | HandlerSent i =>
      match kw_kernel w, kw_running w !! i with
      | KRun _, Some (_, true) =>
          if live w then
            match kw_server w with
            | SRun => (set_kernel (KStopping XHandler) (set_requests (kw_requests w ++ [(0%N, RShutdown)]) w), None)
            | _ => (set_kernel (KStopping XSend) w, None)                       (* the receiver is gone *)
            end
          else same
      | _, _ => same
      end
  | StartFail => match kw_kernel w with KRun _ => if live w then (set_kernel (KStopping XStart) w, None) else same | _ => same end
  | CleanStop => match kw_kernel w with KRun true => if live w then (set_kernel (KStopping XOk) w, None) else same | _ => same end
  | Alerted => match kw_kernel w with KStopping res => if live w then (set_kernel (KOnStop res) w, Some OOnStop) else same | _ => same end
  | OnStopEnd ok =>
      match kw_kernel w with
      | KOnStop res =>
          if live w
          then (set_kernel (KDone match res with XOk => if ok : bool then XOk else XStop | _ => res end) w, Some OStopped)
          else same
      | _ => same
      end
  | KernelReturns => match kw_kernel w with KDone res => if live w then (set_out (Some res) w, Some (OReturned res)) else same | _ => same end
  | ServerReturns ok =>
      match kw_server w with
      | SDone => if live w then let res := if ok : bool then XOk else XServer in (set_out (Some res) w, Some (OReturned res)) else same
      | _ => same
      end
  end.

Fixpoint krun (w : kworld) (es : list kevent) : kworld * list kobs :=
  match es with
  | [] => (w, [])
  | e :: rest =>
      let '(w1, o) := kstep w e in let '(w2, os) := krun w1 rest in
      (w2, match o with Some x => x :: os | None => os end)
  end.

(** KernelExecutor::new, KE 82-127 *)
Definition kinit (limit : option nat) : kworld := mk_kworld limit [] [] [] [] [] SRun (KRun false) None.

(** The calls of the SDK that wait for an answer. *)
Inductive call :=
| CRegister                               (* register, EX 225-280 *)
| CConnect (id : option N)                (* connect, EX 308-376 *)
| CPeers (cid : N)                        (* get_local_group_peers, EX 481-531 *)
| CMutuals (cid : N)                      (* get_local_group_mutual_peers, EX 534-580 *)
| CSessions                               (* sessions, EX 584-616 *)
| CSendFile (cid : N)                     (* send_file_with_custom_opts, EX 649-699 *)
| CPull (cid : N)                         (* remote_encrypted_virtual_filesystem_pull, EX 755-799 *)
| CDelete (cid : N)                       (* remote_encrypted_virtual_filesystem_delete, EX 804-838 *)
| CConnectPeer (cid : N)                  (* connect_to_peer_custom, EX 841-934 *)
| CRegisterPeer (cid : N)                 (* register_to_peer, EX 943-996 *)
| CDeregisterPeer (cid : N)               (* deregister of a peer, EX 1002-1023 *)
| CDeregister (cid : N)                   (* deregister from the server, EX 1024-1050 *)
| CDisconnectPeer (cid : N)               (* disconnect of a peer, EX 1059-1096 *)
| CDisconnect (cid : N)                   (* disconnect from the server, EX 1097-1126 *)
| CCreateGroup (cid : N)                  (* create_group_with_options, EX 1141-1193 *)
| CListGroups (cid : N)                   (* list_owned_groups, EX 1196-1226 *)
| CListSessions                           (* list_sessions, EX 1231-1242 *)
| CRekey (cid : N).                       (* rekey, EX 1247-1269 *)

Definition request_of (c : call) : request :=
  match c with
  | CRegister => RRegister
  | CConnect id => RConnect id
  | CPeers c | CMutuals c | CConnectPeer c | CRegisterPeer c | CDeregisterPeer c | CDisconnectPeer c => RPeer c
  | CSessions | CListSessions => RSessions
  | CSendFile c => RSend c
  | CPull c => RPull c
  | CDelete c => RDelete c
  | CDeregister c => RDeregister c
  | CDisconnect c => RDisconnect c
  | CCreateGroup c | CListGroups c => RGroup c
  | CRekey c => RReKey c
  end.

(** into_result, NR 250-283, fails *)
Definition is_error (r : nresult) : bool :=
  match r with
  | ConnectFail _ _ | RegisterFailure _ | OutboundRequestRejected _ | InternalServerError _ _ | PeerEvent SignalError _ _ => true
  | _ => false
  end.

(** What a call does with a result: [None], it waits for the next; [Some ok], it returns
    (with or without success).  What follows within the call, such as the transfer of the
    file behind the handle, is not part of this. *)
Definition consume (c : call) (r : nresult) : option bool :=
  match c with
  | CRekey _ => match r with ReKeyResult _ _ failed => Some (negb failed) | _ => None end
  | CCreateGroup _ => match r with GroupChannelCreated _ _ => Some true | _ => None end
  | CListSessions => match r with SessionList _ => Some true | _ => Some false end
  | _ =>
      if is_error r then Some false
      else
        match c, r with
        | CRegister, RegisterOkay _ _ => Some true
        | CRegister, Disconnect _ _ _ => Some false
        | CConnect _, ConnectSuccess _ _ => Some true
        | CConnect _, _ => Some false
        | CPeers _, PeerEvent RegisteredPeers _ _ => Some true
        | CMutuals _, PeerEvent MutualPeers _ _ => Some true
        | CSessions, SessionList _ => Some true
        | CSendFile _, ObjectTransferHandle _ _ => Some true
        | CPull _, ObjectTransferHandle _ _ => Some true
        | CPull _, PeerEvent SignalReceived _ _ => None
        | CPull _, _ => Some false
        | CDelete _, ReVFS _ _ failed => Some (negb failed)
        | CConnectPeer _, PeerChannelCreated _ _ => Some true
        | CConnectPeer _, PeerEvent ConnectRefused _ _ => Some false
        | CRegisterPeer _, PeerEvent RegisterResponse _ _ => Some true
        | CDeregisterPeer _, PeerEvent DeregistrationSuccess _ _ => Some true
        | CDeregister _, DeRegistration _ _ success => Some success
        | CDisconnectPeer _, PeerEvent DisconnectResponse _ _ => Some true
        | CDisconnect _, Disconnect _ _ success => Some success
        | CListGroups _, GroupEvent _ _ true => Some true
        | _, _ => None
        end
  end.

(** The first answer that makes the call return. *)
Fixpoint answer (c : call) (got : list nresult) : option bool :=
  match got with [] => None | r :: rest => match consume c r with Some b => Some b | None => answer c rest end end.
