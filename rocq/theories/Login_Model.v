(** Registration, login and deregistration between a client and a server: the processors of the
    DO_REGISTER, DO_PRE_CONNECT, DO_CONNECT and DO_DEREGISTER packets, and what happens at the
    end of a session. Files of citadel_proto/src/proto:
      RG = packet_processor/register_packet.rs, PC = packet_processor/preconnect_packet.rs,
      CN = packet_processor/connect_packet.rs, DG = packet_processor/deregister_packet.rs,
      VA = validation.rs, SE = session.rs, SM = session_manager.rs, ND = node.rs,
      SC = state_subcontainers/, PG = packet_processor/primary_group_packet.rs,
      AM = citadel_user/src/account_manager.rs.
    One node with any number of sessions that share the accounts, the table of the logged-in
    sessions and the disconnect tracker. The packets of the other side are arbitrary.

    Simplifications.
    - A key is a number, a key agreement yields the number that its initiator proposes; a sealed
      packet carries the number of its key and opens under that key only. Replay protection and
      the re-key protocol are the subject of C01, C11 and C49.
    - Credentials are a user name and, for an account with password, the password; comparing
      them is the subject of C34 and C35.
    - The packets of one session are processed one after the other.
    - A re-key replaces the key at once; packets under older versions are refused.
    - What the model does not decide (whether another attempt for the account is going on,
      whether a hole is punched, whether the storage works) is an oracle of the input.
    - The connect mode is Standard; header and payload of the wrong form count as not sealed. *)
From stdpp Require Import prelude gmap.
Local Open Scope N_scope.

(** auth_store, proposed credentials: None stands for a transient account *)
Record creds := mk_creds { c_user : N; c_pass : option N }.
Global Instance creds_eq_dec : EqDecision creds.
Proof. solve_decision. Defined.

(** a ratchet: the account number and the key it was made with (citadel_crypt, new_alice, new_bob) *)
Record ratchet := mk_ratchet { r_cid : N; r_key : N }.

(** ClientNetworkAccount: its number, its credentials, its static ratchet *)
Record account := mk_account { a_cid : N; a_creds : creds; a_static : ratchet }.

(** Transfers of the key agreement that are not protected: well-formed, undecodable, or refused
    by the ratchet constructor *)
Inductive quality := Good | Garbled | Bad.

Inductive body :=
| RegStage0 (q : quality) (transient : bool) (k : N)
| RegStage1 (q : quality)
| RegStage2 (c : creds)
| RegSuccess
| RegFailure (why : N)
| Syn (k : N) (udp : bool)
| SynAck
| PreStage0
| PreFinal (success tcp_only : bool)
| BeginConnect
| Halt (why : N)
| ConStage0 (c : option creds)            (* None: it cannot be decoded *)
| ConFailure (why : N)
| ConSuccess
| ConSuccessAck
| DeregStage0
| DeregSuccess
| DeregFailure.

(** header.session_cid, header.context_info, the key it is sealed with *)
Record packet := mk_packet { p_cid : N; p_ticket : N; p_seal : option N; p_body : body }.

(** what the kernel is told; [KError] is send_error, ND 405-424 *)
Inductive kevent :=
| KRegisterOkay (t cid : N)
| KRegisterFailure (t why : N)
| KConnectSuccess (t cid channel : N)     (* [channel]: the number of the channel inside *)
| KConnectFail (t : N) (cid why : N)
| KDeRegistration (cid : N) (t : option N) (success : bool)
| KDisconnect (t cid : N)
| KError (t : N).

(** reasons that nodes give of their own accord *)
Definition why_transient : N := 1.        (* RG 93-94 *)
Definition why_account : N := 2.          (* RG 305-315 *)
Definition why_busy : N := 3.             (* PC 97 *)
Definition why_syn : N := 4.              (* PC 176 *)
Definition why_unknown : N := 5.          (* PC 184 *)
Definition why_syn_ack : N := 6.          (* PC 284-286 *)
Definition why_stage0 : N := 7.           (* PC 372-374 *)
Definition why_preconnect : N := 8.       (* PC 482 *)
Definition why_credentials : N := 9.      (* CN 237 *)

(** SessionState, SE 264-280 *)
Inductive sstate := SocketJustOpened | NeedsRegister | NeedsConnect | ConnectionProcess | Connected | Disconnecting.
Global Instance sstate_eq_dec : EqDecision sstate.
Proof. solve_decision. Defined.

(** the last_stage fields; all start with 0 *)
Inductive reg_stage := G0 | G1 | G2 | GFailed.
Inductive pre_stage := P0 | PSynAck | PSuccess.
Inductive con_stage := C0 | C1 | CSuccess | CFailed.
Global Instance con_stage_eq_dec : EqDecision con_stage.
Proof. solve_decision. Defined.

(** SC register_state_container.rs, connect_state_container.rs, preconnect_state_container.rs *)
Record reg := mk_reg { g_stage : reg_stage; g_cons : option ratchet; g_made : option ratchet; g_transient : option bool }.
Record pre := mk_pre { q_stage : pre_stage; q_cons : option ratchet; q_made : option ratchet; q_success : bool; q_udp : bool }.
Record con := mk_con { o_stage : con_stage; o_creds : option creds; o_signal : option kevent }.

(** CitadelSessionInner, SE 205-262 *)
Record sess := mk_sess {
  s_server : bool;                        (* is_server *)
  s_request : N;                          (* the ticket of the request that opened it, ND 465, 506 *)
  s_state : sstate;
  s_cid : option N;                       (* session_cid *)
  s_ticket : N;                           (* kernel_ticket *)
  s_dc : bool;                            (* dc_signal_sender is still there *)
  s_reg : reg; s_pre : pre; s_con : con;
  s_cnac : option account;
  s_conn : option ratchet;                (* the current ratchet of the C2S endpoint container *)
  s_dereg : option N;                     (* deregister_state.current_ticket *)
  s_over : bool }.                        (* execute has returned *)

Definition set_state x s := mk_sess (s_server s) (s_request s) x (s_cid s) (s_ticket s) (s_dc s) (s_reg s) (s_pre s) (s_con s) (s_cnac s) (s_conn s) (s_dereg s) (s_over s).
Definition set_cid x s := mk_sess (s_server s) (s_request s) (s_state s) x (s_ticket s) (s_dc s) (s_reg s) (s_pre s) (s_con s) (s_cnac s) (s_conn s) (s_dereg s) (s_over s).
Definition set_ticket x s := mk_sess (s_server s) (s_request s) (s_state s) (s_cid s) x (s_dc s) (s_reg s) (s_pre s) (s_con s) (s_cnac s) (s_conn s) (s_dereg s) (s_over s).
Definition set_dc x s := mk_sess (s_server s) (s_request s) (s_state s) (s_cid s) (s_ticket s) x (s_reg s) (s_pre s) (s_con s) (s_cnac s) (s_conn s) (s_dereg s) (s_over s).
Definition set_reg x s := mk_sess (s_server s) (s_request s) (s_state s) (s_cid s) (s_ticket s) (s_dc s) x (s_pre s) (s_con s) (s_cnac s) (s_conn s) (s_dereg s) (s_over s).
Definition set_pre x s := mk_sess (s_server s) (s_request s) (s_state s) (s_cid s) (s_ticket s) (s_dc s) (s_reg s) x (s_con s) (s_cnac s) (s_conn s) (s_dereg s) (s_over s).
Definition set_con x s := mk_sess (s_server s) (s_request s) (s_state s) (s_cid s) (s_ticket s) (s_dc s) (s_reg s) (s_pre s) x (s_cnac s) (s_conn s) (s_dereg s) (s_over s).
Definition set_cnac x s := mk_sess (s_server s) (s_request s) (s_state s) (s_cid s) (s_ticket s) (s_dc s) (s_reg s) (s_pre s) (s_con s) x (s_conn s) (s_dereg s) (s_over s).
Definition set_conn x s := mk_sess (s_server s) (s_request s) (s_state s) (s_cid s) (s_ticket s) (s_dc s) (s_reg s) (s_pre s) (s_con s) (s_cnac s) x (s_dereg s) (s_over s).
Definition set_dereg x s := mk_sess (s_server s) (s_request s) (s_state s) (s_cid s) (s_ticket s) (s_dc s) (s_reg s) (s_pre s) (s_con s) (s_cnac s) (s_conn s) x (s_over s).
Definition set_over x s := mk_sess (s_server s) (s_request s) (s_state s) (s_cid s) (s_ticket s) (s_dc s) (s_reg s) (s_pre s) (s_con s) (s_cnac s) (s_conn s) (s_dereg s) x.

(** what the sessions of a node share: the accounts (PersistenceHandler), the table of the
    sessions that are logged in (SM sessions: account to session), the c2s half of the
    disconnect tracker *)
Record shared := mk_shared { h_store : gmap N account; h_online : gmap N N; h_tracker : gset N }.
Definition set_store x h := mk_shared x (h_online h) (h_tracker h).
Definition set_online x h := mk_shared (h_store h) x (h_tracker h).
Definition set_tracker x h := mk_shared (h_store h) (h_online h) x.

(** get_cid_by_username, the credential requirements together with the policy on accounts
    without password (AM 238-244), allow_transient_connections *)
Record config := mk_config { f_cid : N → N; f_accept : creds → bool; f_transient : bool }.

(** the answers of what is not modelled *)
Record oracle := mk_oracle {
  e_proceed : bool;                       (* can_proceed_with_new_incoming_connection, SM 185-270 *)
  e_upgrade : bool;                       (* upgrade_connection, SM 953-975 *)
  e_udp : bool;                           (* hole punched, PC 296-306, 384-394 *)
  e_quic : bool;                          (* the primary stream is a QUIC connection, PC 242-259 *)
  e_store : bool }.                       (* storage, peer layer and services answer *)
Definition usual : oracle := mk_oracle true true true false true.

(** PrimaryProcessorResult: go on, session.shutdown() was called, end with an error *)
Inductive verdict := Go | Stop | End.
Record result := mk_result { x_shared : shared; x_sess : sess; x_send : list packet; x_tell : list kevent; x_verdict : verdict }.

(** get_cid of the account manager's tables: is_transient, client_account.rs 549-551 *)
Definition transient (a : account) : bool := match c_pass (a_creds a) with None => true | Some _ => false end.

(** is_provisional, SE 2494-2497 *)
Definition provisional (s : sess) : bool :=
  match s_state s with Connected | Disconnecting => false | _ => true end.

(** the packet opens under the key of the ratchet: VA aead *)
Definition opens (r : ratchet) (p : packet) : bool := bool_decide (p_seal p = Some (r_key r)).

(** get_orientation_safe_ratchet without proxy, PG 523-534 *)
Definition safe_ratchet (s : sess) : option ratchet :=
  match s_state s with Connected => s_conn s | _ => q_made (s_pre s) end.

(** send_session_dc_signal, SE 2499-2543 *)
Definition dc_signal (t : option N) (h : shared) (s : sess) : shared * sess * list kevent :=
  match s_cid s with
  | None => (h, set_dc false s, [])
  | Some c =>
      if bool_decide (s_ticket s ∈ h_tracker h) then (h, set_dc false s, [])
      else
        let h := set_tracker ({[s_ticket s]} ∪ h_tracker h) h in
        if s_dc s then (h, set_dc false (set_state Disconnecting s), [KDisconnect (default (s_ticket s) t) c])
        else (h, s, [])
  end.

(** begin_connect, SE 735-807: [k] is the key the agreement will yield *)
Definition begin_connect (k : N) (udp : bool) (a : account) (s : sess) : sess * list packet :=
  (set_pre (mk_pre PSynAck (Some (mk_ratchet (a_cid a) k)) (q_made (s_pre s)) (q_success (s_pre s)) udp) (set_state NeedsConnect s),
   [mk_packet (r_cid (a_static a)) (s_ticket s) (Some (r_key (a_static a))) (Syn k udp)]).

(** the key that the session will propose when it connects after having registered without
    password: it is drawn then; here the one after that of the registration *)
Definition next_key (r : ratchet) : N := N.succ (r_key r).

Definition go h s := mk_result h s [] [] Go.
Definition reply h s p := mk_result h s [p] [] Go.

(** process_register, RG 54-483 *)
Definition process_register (cf : config) (h : shared) (s : sess) (p : packet) (e : oracle) : result :=
  let g := s_reg s in
  let void := go h s in
  match s_state s with
  | NeedsRegister | SocketJustOpened | NeedsConnect =>                          (* RG 62-68 *)
      match p_body p with
      | RegStage0 Garbled _ _ =>                                                (* RG 171-181 *)
          mk_result h (set_state NeedsRegister (set_reg (mk_reg GFailed None (g_made g) (g_transient g)) s)) [] [] End
      | RegStage0 q tr k =>
          if tr && negb (f_transient cf)                                        (* RG 87-105 *)
          then mk_result h s [mk_packet (p_cid p) (p_ticket p) None (RegFailure why_transient)] [] End
          else match q with
          | Good =>
              match g_stage g with
              | G0 => reply h (set_reg (mk_reg G1 (g_cons g) (Some (mk_ratchet (p_cid p) k)) (Some tr)) s)
                        (mk_packet (p_cid p) (p_ticket p) None (RegStage1 Good))
              | _ => void
              end
          | _ => mk_result h s [] [] End
          end
      | RegStage1 q =>                                                          (* RG 185-244 *)
          match g_cons g with
          | None => void
          | Some r =>
              let s := set_reg (mk_reg (g_stage g) None (g_made g) (g_transient g)) s in
              match q, o_creds (s_con s) with
              | Garbled, _ => go h s
              | Bad, _ => mk_result h s [] [] End
              | Good, None => go h s
              | Good, Some c =>
                  reply h (set_reg (mk_reg G2 None (Some r) (g_transient g)) s)
                    (mk_packet (r_cid r) (p_ticket p) (Some (r_key r)) (RegStage2 c))
              end
          end
      | RegStage2 c =>                                                          (* RG 246-337 *)
          match g_stage g, g_made g with
          | G1, Some r =>
              if opens r p then
                (* register_impersonal_hyperlan_client_network_account, AM 224-276 *)
                let cid := f_cid cf (c_user c) in
                if (cid =? 0) || negb (f_accept cf c) || bool_decide (is_Some (h_store h !! cid)) || negb (e_store e)
                then reply h s (mk_packet (p_cid p) (p_ticket p) None (RegFailure why_account))
                else reply (set_store (<[cid := mk_account cid c r]> (h_store h)) h) s
                       (mk_packet (r_cid r) (p_ticket p) (Some (r_key r)) RegSuccess)
              else void
          | _, _ => void
          end
      | RegSuccess =>                                                           (* RG 339-437 *)
          match g_stage g, g_made g with
          | G2, Some r =>
              if opens r p then
                match o_creds (s_con s), g_transient g with
                | Some c, Some tr =>
                    (* register_personal_hyperlan_server, AM 280-305 *)
                    let cid := f_cid cf (c_user c) in
                    if (cid =? 0) || negb (e_store e) then mk_result h s [] [KRegisterFailure (s_ticket s) why_account] End
                    else
                      let a := mk_account cid c r in
                      let h := set_store (<[cid := a]> (h_store h)) h in
                      if tr : bool
                      then let '(s, out) := begin_connect (next_key r) (q_udp (s_pre s)) a s in mk_result h (set_cnac (Some a) s) out [] Go
                      else mk_result h (set_state Disconnecting s) [] [KRegisterOkay (s_ticket s) cid] Stop
                | _, _ => void
                end
              else void
          | _, _ => void
          end
      | RegFailure why =>                                                       (* RG 442-473 *)
          match g_stage g with
          | G0 => void
          | _ => mk_result h (set_state Disconnecting s) [] [KRegisterFailure (s_ticket s) why] End
          end
      | _ => void
      end
  | _ => void
  end.

(** send_error_and_end_session, PC 680-698 *)
Definition halt h s (p : packet) why : result :=
  mk_result h s [mk_packet (p_cid p) (p_ticket p) None (Halt why)] [] End.

(** process_preconnect, PC 61-553 *)
Definition process_preconnect (cf : config) (h : shared) (s : sess) (p : packet) (e : oracle) : result :=
  let q := s_pre s in
  let void := go h s in
  if negb (provisional s) then void else                                        (* PC 68-71 *)
  match p_body p with
  | Syn k udp =>                                                                (* PC 81-189 *)
      if negb (e_proceed e) then halt h s p why_busy
      else match h_store h !! p_cid p with
      | None => halt h s p why_unknown
      | Some a =>
          if opens (a_static a) p then                                          (* validate_syn, VA 242-312 *)
            reply h (set_cid (Some (p_cid p)) (set_cnac (Some a) (set_ticket (p_ticket p)
                      (set_pre (mk_pre PSynAck (q_cons q) (Some (mk_ratchet (p_cid p) k)) (q_success q) udp) s))))
              (mk_packet (r_cid (a_static a)) (p_ticket p) (Some (r_key (a_static a))) SynAck)
          else halt h s p why_syn
      end
  | SynAck =>                                                                   (* PC 191-317 *)
      match s_cnac s, q_stage q, q_cons q with
      | Some a, PSynAck, Some r =>
          if opens (a_static a) p then
            let s := set_pre (mk_pre PSuccess None (Some r) (q_success q) (q_udp q)) s in
            let stage0 := mk_packet (r_cid r) (p_ticket p) (Some (r_key r)) PreStage0 in
            let final b := mk_packet (r_cid r) (p_ticket p) (Some (r_key r)) (PreFinal true b) in
            if negb (q_udp q) then reply h s stage0                             (* PC 225-239 *)
            else if e_quic e then reply h s (final false)                       (* PC 241-259 *)
            else mk_result h s [stage0; final (negb (e_udp e))] [] Go           (* PC 261-316, 589-610 *)
          else halt h (set_pre (mk_pre (q_stage q) None (q_made q) (q_success q) (q_udp q)) s) p why_syn_ack
      | _, _, _ => void
      end
  | PreStage0 =>                                                                (* PC 319-412 *)
      match q_made q, q_stage q with
      | Some r, PSynAck =>
          if opens r p then
            if negb (q_udp q)
            then reply h (set_pre (mk_pre PSynAck (q_cons q) (Some r) true (q_udp q)) s)
                   (mk_packet (r_cid r) (p_ticket p) (Some (r_key r)) BeginConnect)
            else go h (set_pre (mk_pre PSuccess (q_cons q) (Some r) (q_success q) (e_udp e)) s)
          else halt h s p why_stage0
      | _, _ => void
      end
  | PreFinal success tcp_only =>                                                (* PC 415-500 *)
      match q_made q, s_cnac s with
      | Some r, Some a =>
          if opens r p then
            let s := set_pre (mk_pre (q_stage q) (q_cons q) (Some r) true (q_udp q && success)) s in
            let begin := mk_packet (r_cid r) (p_ticket p) (Some (r_key r)) BeginConnect in
            if negb tcp_only && negb success
            then mk_result h s [] [KConnectFail (s_ticket s) (a_cid a) why_preconnect] End
            else reply h s begin
          else void
      | _, _ => void
      end
  | BeginConnect =>                                                             (* PC 503-529, 555-587 *)
      match q_made q, q_stage q with
      | Some r, PSuccess =>
          if opens r p then
            let s := set_pre (mk_pre PSuccess (q_cons q) (Some r) true (q_udp q)) s in
            match o_creds (s_con s) with
            | None => go h s
            | Some c =>
                reply h (set_state ConnectionProcess (set_con (mk_con C1 None (o_signal (s_con s))) s))
                  (mk_packet (r_cid r) (p_ticket p) (Some (r_key r)) (ConStage0 (Some c)))
            end
          else void
      | _, _ => void
      end
  | Halt why => mk_result h s [] [KConnectFail (s_ticket s) (p_cid p) why] End  (* PC 531-543 *)
  | _ => void
  end.

(** process_connect, CN 57-462 *)
Definition process_connect (sid : N) (h : shared) (s : sess) (p : packet) (e : oracle) : result :=
  let o := s_con s in
  let void := go h s in
  if negb (provisional s) && negb (bool_decide (o_stage o = CSuccess)) then void    (* CN 66-72 *)
  else if negb (q_success (s_pre s)) then void                                   (* CN 74-77 *)
  else match safe_ratchet s, s_cnac s with
  | Some r, Some a =>
      if negb (opens r p) then void                                             (* CN 89-92 *)
      else match p_body p with
      | ConStage0 c =>                                                          (* CN 102-250 *)
          if bool_decide (o_stage o = CSuccess) then void
          else if bool_decide (c = Some (a_creds a)) then                       (* validate_stage0_packet, VA 44-57 *)
            if negb (bool_decide (s_ticket s = p_ticket p)) then mk_result h s [] [] End     (* CN 136-139 *)
            else
              let s := set_conn (Some r) (set_con (mk_con CSuccess (o_creds o) (o_signal o)) s) in
              if negb (e_upgrade e) then mk_result h s [] [] End                (* CN 166-168 *)
              else
                let h := set_online (<[r_cid r := sid]> (h_online h)) h in
                if negb (e_store e) then mk_result h s [] [] End                (* CN 174-187 *)
                else
                  let signal := KConnectSuccess (s_ticket s) (r_cid r) (p_cid p) in
                  reply h (set_state Connected (set_cid (Some (r_cid r)) (set_con (mk_con CSuccess (o_creds o) (Some signal)) s)))
                    (mk_packet (r_cid r) (s_ticket s) (Some (r_key r)) ConSuccess)
          else reply h s (mk_packet (r_cid r) (p_ticket p) (Some (r_key r)) (ConFailure why_credentials))
      | ConFailure why =>                                                       (* CN 252-283 *)
          mk_result h (set_dc false (set_state NeedsConnect (set_cid None (set_con (mk_con CFailed (o_creds o) (o_signal o)) s))))
            [] [KConnectFail (s_ticket s) (r_cid r) why] End
      | ConSuccess =>                                                           (* CN 286-437 *)
          if bool_decide (o_stage o = C1) then
            let s := set_cid (Some (r_cid r)) (set_conn (Some r) (set_con (mk_con CSuccess (o_creds o) (o_signal o)) s)) in
            if negb (e_upgrade e) then mk_result h s [] [] End                  (* CN 344-349 *)
            else
              let h := set_online (<[r_cid r := sid]> (h_online h)) h in
              mk_result h (set_state Connected s)
                [mk_packet (r_cid r) (p_ticket p) (Some (r_key r)) ConSuccessAck]
                [KConnectSuccess (s_ticket s) (r_cid r) (p_cid p)] (if e_store e then Go else End)
          else void
      | ConSuccessAck =>                                                        (* CN 439-452 *)
          match s_server s, s_conn s, o_signal o with
          | true, Some _, Some signal => mk_result h (set_con (mk_con (o_stage o) (o_creds o) None) s) [] [signal] Go
          | _, _, _ => mk_result h s [] [] End
          end
      | _ => void
      end
  | _, _ => void
  end.

(** delete_client_by_cid, AM 450-452: an error if there is no such account *)
Definition delete_client (cid : N) (h : shared) (e : oracle) : shared * bool :=
  if bool_decide (is_Some (h_store h !! cid)) && e_store e then (set_store (delete cid (h_store h)) h, true) else (h, false).

(** process_deregister, DG 47-235 *)
Definition process_deregister (h : shared) (s : sess) (p : packet) (e : oracle) : result :=
  let void := go h s in
  if negb (bool_decide (s_state s = Connected)) then void                       (* DG 54-57 *)
  else match safe_ratchet s with
  | None => void
  | Some r =>
      if negb (opens r p) then void
      else match p_body p with
      | DeregStage0 =>                                                          (* DG 127-192 *)
          let '(h, ok) := delete_client (p_cid p) h e in
          let '(h, s, dc) := dc_signal (s_dereg s) h (set_state NeedsRegister s) in
          mk_result h s [mk_packet (r_cid r) 0 (Some (r_key r)) (if ok then DeregSuccess else DeregFailure)]
            (KDeRegistration (p_cid p) (s_dereg s) ok :: dc) Go
      | DeregSuccess =>                                                         (* DG 194-235 *)
          let '(h, ok) := delete_client (p_cid p) h e in
          let '(h, s, dc) := dc_signal (s_dereg s) h s in
          mk_result h (set_state Disconnecting s) [] (KDeRegistration (p_cid p) (s_dereg s) true :: dc) Stop
      | DeregFailure =>                                                         (* DG 97-115 *)
          match s_cid s with
          | None => void
          | Some c => mk_result h s [] [KDeRegistration c (s_dereg s) false] End
          end
      | _ => void
      end
  end.

(** process_raw_packet: to the processor of the command *)
Definition process (cf : config) (sid : N) (h : shared) (s : sess) (p : packet) (e : oracle) : result :=
  match p_body p with
  | RegStage0 _ _ _ | RegStage1 _ | RegStage2 _ | RegSuccess | RegFailure _ => process_register cf h s p e
  | Syn _ _ | SynAck | PreStage0 | PreFinal _ _ | BeginConnect | Halt _ => process_preconnect cf h s p e
  | ConStage0 _ | ConFailure _ | ConSuccess | ConSuccessAck => process_connect sid h s p e
  | DeregStage0 | DeregSuccess | DeregFailure => process_deregister h s p e
  end.

(** The end of a session: handle_session_terminating_error (SE 997-1067), execute (SE 584-628),
    execute_session_with_safe_shutdown (SM 528-668), Drop (SE 2549-2572), send_error (ND 478-480,
    519-521). [err]: with an error, not by shutdown() or because the stream was closed.
    The deletion of a transient account is a task of its own there. *)
Definition finish (sid : N) (err : bool) (h : shared) (s : sess) : shared * sess * list kevent :=
  let '(h, s, dc1) := if err then dc_signal (Some (s_ticket s)) h s else (h, s, []) in
  let s := set_state Disconnecting s in
  let h := match s_cid s with
           | Some c => if bool_decide (h_online h !! c = Some sid) then set_online (delete c (h_online h)) h else h
           | None => h
           end in
  let h := match s_cnac s with
           | Some a => if transient a then set_store (delete (a_cid a) (h_store h)) h else h
           | None => h
           end in
  let '(h, s, dc2) := dc_signal None h s in
  (h, set_over true s, dc1 ++ dc2 ++ (if negb (s_server s) && err then [KError (s_request s)] else [])).

(** inputs to a session that is there *)
Inductive input :=
| Recv (p : packet) (e : oracle)
| AskDeregister (t : N)                   (* the user: initiate_deregister, SE 2473-2492 *)
| Rekey (k : N)                           (* a re-key completes; the ratchets it makes carry the number
                                             of the static one: toolset.rs 279, ratchet_manager.rs 1000-1001 *)
| StreamEnds (err : bool).                (* the stream ends, a timer ends the session, the user disconnects *)

Definition act (cf : config) (sid : N) (h : shared) (s : sess) (i : input) : shared * sess * list packet * list kevent :=
  if s_over s then (h, s, [], [])
  else match i with
  | Recv p e =>
      let x := process cf sid h s p e in
      match x_verdict x with
      | Go => (x_shared x, x_sess x, x_send x, x_tell x)
      | v =>
          let err := match v with End => true | _ => false end in
          let s := if err then set_state Disconnecting (x_sess x) else x_sess x in      (* evaluate_result, SE 933-995 *)
          let '(h, s, ks) := finish sid err (x_shared x) s in
          (h, s, x_send x, x_tell x ++ ks)
      end
  | AskDeregister t =>
      match s_conn s with
      | Some r => (h, set_dereg (Some t) s, [mk_packet (r_cid r) 0 (Some (r_key r)) DeregStage0], [])
      | None => (h, s, [], [])
      end
  | Rekey k =>
      match s_state s, s_conn s, s_cnac s with
      | Connected, Some _, Some a => (h, set_conn (Some (mk_ratchet (r_cid (a_static a)) k)) s, [], [])
      | _, _, _ => (h, s, [], [])
      end
  | StreamEnds err => let '(h, s, ks) := finish sid err h s in (h, s, [], ks)
  end.

(** Opening a session: CitadelSession::new (SE 330-497), handle_zero_state (SE 647-733) *)
Inductive opening :=
| Accept (t : N)                                  (* a connection comes in; [t] numbers it, SM 701-702 *)
| OpenRegister (t k : N) (c : creds)              (* register() *)
| OpenConnect (t k : N) (cid : N) (c : creds) (udp : bool)     (* connect() with a password *)
| OpenTransient (t k : N) (user : N) (udp : bool).             (* connect() without *)

Definition blank (server : bool) (t : N) (st : sstate) (cid : option N) (g : reg) (udp : bool) (c : option creds) : sess :=
  mk_sess server t st cid t true g (mk_pre P0 None None false udp) (mk_con C0 c None) None None None false.

Definition open_session (cf : config) (h : shared) (i : opening) : option (sess * list packet) :=
  match i with
  | Accept t => Some (blank true t SocketJustOpened None (mk_reg G0 None None None) false None, [])
  | OpenRegister t k c =>
      let cid := f_cid cf (c_user c) in
      Some (blank false t NeedsRegister None (mk_reg G0 (Some (mk_ratchet cid k)) None (Some false)) false (Some c),
            [mk_packet cid t None (RegStage0 Good false k)])
  | OpenTransient t k u udp =>
      let cid := f_cid cf u in
      Some (blank false t NeedsRegister None (mk_reg G0 (Some (mk_ratchet cid k)) None (Some true)) udp (Some (mk_creds u None)),
            [mk_packet cid t None (RegStage0 Good true k)])
  | OpenConnect t k cid c udp =>
      match h_store h !! cid with
      | Some a =>
          let s := set_cnac (Some a) (blank false t NeedsConnect (Some cid) (mk_reg G0 None None None) udp (Some c)) in
          Some (begin_connect k udp a s)
      | None => None
      end
  end.

(** A node. The kernel events are kept with their session. *)
Record node := mk_node { n_shared : shared; n_sess : gmap N sess; n_log : list (N * kevent) }.
Definition init : node := mk_node (mk_shared ∅ ∅ ∅) ∅ [].

Inductive event := Open (sid : N) (i : opening) | In (sid : N) (i : input).

Definition step (cf : config) (n : node) (ev : event) : node * list packet :=
  match ev with
  | Open sid i =>
      match n_sess n !! sid, open_session cf (n_shared n) i with
      | None, Some (s, out) => (mk_node (n_shared n) (<[sid := s]> (n_sess n)) (n_log n), out)
      | _, _ => (n, [])
      end
  | In sid i =>
      match n_sess n !! sid with
      | None => (n, [])
      | Some s =>
          let '(h, s, out, ks) := act cf sid (n_shared n) s i in
          (mk_node h (<[sid := s]> (n_sess n)) (n_log n ++ map (pair sid) ks), out)
      end
  end.

Fixpoint run (cf : config) (n : node) (evs : list event) : node :=
  match evs with [] => n | ev :: rest => run cf (step cf n ev).1 rest end.
