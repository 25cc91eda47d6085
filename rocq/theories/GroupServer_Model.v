(** Model of the server's message groups and mailboxes.

    Source: /repo/citadel_proto/src/proto/packet_processor/peer/group_broadcast.rs
    (server side), peer/peer_layer.rs and session_manager.rs.

    Simplifications: the handling of one signal is one step (the code takes the
    lock of the peer layer several times within one signal); [sessions] are the
    accounts with an entry in the session map and a primary stream, and sending to
    such a session succeeds; storing mail does not fail, and for an account that
    does not exist it does nothing (citadel_user backend/memory.rs 370-391); sets
    are walked in an unspecified order in the code, here in the order of
    [elements]; the encryption of the packets is left out; the account of a signal is the one
    in its packet header, here taken to be that of the session (GroupWire_Model drops this). *)
From stdpp Require Import prelude gmap.
Local Open Scope N_scope.

(** MessageGroupKey: the owner's account and the number of the group *)
Definition gkey : Type := N * N.

(** peer_layer.rs: MessageGroup *)
Record mgroup := mk_mgroup { mg_members : gset N; mg_pending : gset N; mg_public : bool }.

(** what a client is told: GroupBroadcast, as far as the server sends it *)
Inductive note :=
| NInvitation (sender : N) (k : gkey)
| NMessage (sender : N) (k : gkey) (m : list N)
| NEntered (k : gkey) (cids : list N)
| NLeft (k : gkey) (cids : list N)
| NDisconnected (k : gkey)
| NRequestJoin (sender : N) (k : gkey)
| NJoinPending (k : gkey) (ok : bool)
| NNonExists (k : gkey)
| NAccepted (k : gkey) (ok : bool)
| NDecline (target : N) (k : gkey)
| NResponse (k : gkey) (ok : bool)          (* the other responses to the sender *)
| NCreated (k : option gkey)
| NGroups (ks : list gkey)
| NAdded (k : gkey) (failed : list N)
| NKeyPackage (k : gkey) (joiner : N) (payload : list N)
| NWelcome (k : gkey) (joiner : N) (payload : list N)
| NCommit (k : gkey) (epoch : N) (payload : list N)
| NAssign (k : gkey) (target : N) (payload : list N)
| NOther (x : N).                            (* mail of another kind *)

(** what a client asks: GroupBroadcast, as far as the server acts on it *)
Inductive req :=
| RCreate (id : N) (public : bool) (invitees : list N)
| RRequestJoin (sender : N) (k : gkey)
| RList (owner : N)
| REnd (k : gkey)
| RMessage (sender : N) (k : gkey) (m : list N)
| RAccept (target : N) (k : gkey)
| RDecline (target : N) (k : gkey)
| RLeave (k : gkey)
| RAdd (k : gkey) (invitees : list N)
| RKick (k : gkey) (peers : list N)
| RKeyPackage (k : gkey) (joiner : N) (payload : list N)
| RWelcome (k : gkey) (joiner : N) (payload : list N)
| RCommit (k : gkey) (epoch : N) (payload : list N)
| RAssign (k : gkey) (target : N) (payload : list N).

Record server := mk_server {
  sv_accounts : gset N;
  sv_sessions : gset N;
  sv_groups : gmap N (gmap N mgroup);
  sv_mail : gmap N (list note);
  sv_mutual : N → N → bool }.       (* hyperlan_peers_are_mutuals *)

(** what happens: a packet to a session, mail put into a mailbox, mail handed out *)
Inductive effect :=
| Sent (to : N) (n : note)
| Mailed (to : N) (n : note)
| MailOut (to : N) (ns : list note).

Definition with_groups (s : server) (g : gmap N (gmap N mgroup)) : server :=
  mk_server (sv_accounts s) (sv_sessions s) g (sv_mail s) (sv_mutual s).
Definition with_mail (s : server) (m : gmap N (list note)) : server :=
  mk_server (sv_accounts s) (sv_sessions s) (sv_groups s) m (sv_mutual s).

(** ** peer_layer.rs *)

Definition get_group (s : server) (k : gkey) : option mgroup :=
  match sv_groups s !! k.1 with None => None | Some m => m !! k.2 end.
Definition set_group (s : server) (k : gkey) (g : mgroup) : server :=
  match sv_groups s !! k.1 with
  | None => s
  | Some m => with_groups s (<[k.1 := <[k.2 := g]> m]> (sv_groups s))
  end.

(** 201-245 *)
Definition create_new_message_group (s : server) (cid : N) (invitees : list N) (id : N) (public : bool)
  : server * option gkey :=
  match sv_groups s !! cid with
  | None => (s, None)
  | Some m =>
      if bool_decide (size m <= 255)%nat then
        match m !! id with
        | Some _ => (s, None)
        | None =>
            (with_groups s (<[cid := <[id := mk_mgroup {[cid]} (list_to_set invitees) public]> m]> (sv_groups s)),
             Some (cid, id))
        end
      else (s, None)
  end.

(** 248-252 *)
Definition pl_remove_group (s : server) (k : gkey) : server * option mgroup :=
  match sv_groups s !! k.1 with
  | None => (s, None)
  | Some m => (with_groups s (<[k.1 := delete k.2 m]> (sv_groups s)), m !! k.2)
  end.

(** 255-267 *)
Definition add_pending (s : server) (k : gkey) (peers : list N) : server :=
  match get_group s k with
  | None => s
  | Some g => set_group s k (mk_mgroup (mg_members g) (mg_pending g ∪ list_to_set peers) (mg_public g))
  end.

(** 271-283 *)
Definition upgrade_peer (s : server) (k : gkey) (p : N) : server * bool :=
  match get_group s k with
  | None => (s, false)
  | Some g =>
      if bool_decide (p ∈ mg_pending g)
      then (set_group s k (mk_mgroup ({[p]} ∪ mg_members g) (mg_pending g ∖ {[p]}) (mg_public g)), true)
      else (s, false)
  end.

(** 287-302 *)
Definition remove_pending (s : server) (k : gkey) (p : N) : server * bool :=
  match get_group s k with
  | None => (s, false)
  | Some g =>
      if bool_decide (p ∈ mg_pending g)
      then (set_group s k (mk_mgroup (mg_members g) (mg_pending g ∖ {[p]}) (mg_public g)), true)
      else (s, false)
  end.

(** 315-329 *)
Definition get_peers (s : server) (k : gkey) : option (list N) :=
  match get_group s k with
  | None => None
  | Some g => match elements (mg_members g) with [] => None | l => Some l end
  end.

(** 332-353: the peers removed, and the peers remaining *)
Fixpoint remove_each (ms : gset N) (peers : list N) : gset N * list N :=
  match peers with
  | [] => (ms, [])
  | p :: rest =>
      if bool_decide (p ∈ ms) then let '(ms', l) := remove_each (ms ∖ {[p]}) rest in (ms', p :: l)
      else remove_each ms rest
  end.
Definition remove_peers (s : server) (k : gkey) (peers : list N) : option (server * list N * list N) :=
  match get_group s k with
  | None => None
  | Some g =>
      let '(ms, removed) := remove_each (mg_members g) peers in
      Some (set_group s k (mk_mgroup ms (mg_pending g) (mg_public g)), removed, elements ms)
  end.

(** 371-382: [Some true]: joined at once *)
Definition request_join (s : server) (p : N) (k : gkey) : server * option bool :=
  match get_group s k with
  | None => (s, None)
  | Some g =>
      if mg_public g then (set_group s k (mk_mgroup ({[p]} ∪ mg_members g) (mg_pending g) (mg_public g)), Some true)
      else (s, Some false)
  end.

(** 388-402 *)
Definition add_mail (s : server) (to : N) (n : note) : server :=
  if bool_decide (to ∈ sv_accounts s)
  then with_mail s (<[to := default [] (sv_mail s !! to) ++ [n]]> (sv_mail s))
  else s.

(** 147-181; the session enters the session map *)
Definition connect (s : server) (cid : N) : server * list effect :=
  let groups := match sv_groups s !! cid with Some _ => sv_groups s | None => <[cid := ∅]> (sv_groups s) end in
  let box := default [] (sv_mail s !! cid) in
  (mk_server (sv_accounts s) ({[cid]} ∪ sv_sessions s) groups (delete cid (sv_mail s)) (sv_mutual s),
   match box with [] => [] | _ => [MailOut cid box] end).

(** session_manager.rs 1564-1573: the session leaves the session map *)
Definition clear (s : server) (cid : N) : server :=
  mk_server (sv_accounts s) (sv_sessions s ∖ {[cid]}) (sv_groups s) (sv_mail s) (sv_mutual s).
(** peer_layer.rs 185-197, run by a separate task (session_manager.rs 640-655) *)
Definition on_session_shutdown (s : server) (cid : N) : server :=
  mk_server (sv_accounts s) (sv_sessions s) (delete cid (sv_groups s)) (delete cid (sv_mail s)) (sv_mutual s).

(** ** session_manager.rs *)

(** 1576-1601: a packet to a session, if there is one *)
Definition direct (s : server) (to : N) (n : note) : option (list effect) :=
  if bool_decide (to ∈ sv_sessions s) then Some [Sent to n] else None.

(** 1436-1498; every peer comes with whether it may be told.  First all packets
    are sent, then the mail is put into the boxes. *)
Fixpoint send_all (s : server) (l : list (N * bool)) (n : note) : list effect * list N * list N * list N :=
  match l with
  | [] => ([], [], [], [])             (* packets, told, to be mailed, failed *)
  | (p, ok) :: rest =>
      let '(es, told, mail, failed) := send_all s rest n in
      if ok then
        match direct s p n with
        | Some e => (e ++ es, p :: told, mail, failed)
        | None => (es, told, p :: mail, failed)
        end
      else (es, told, mail, p :: failed)
  end.
Definition group_signal (s : server) (l : list (N * bool)) (n : note) : server * list effect * list N * list N :=
  let '(es, told, mail, failed) := send_all s l n in
  (foldl (λ s p, add_mail s p n) s mail, es ++ ((λ p, Mailed p n) <$> filter (λ p, p ∈ sv_accounts s) mail), told ++ mail, failed).

(** 1199-1230 *)
Definition broadcast (s : server) (from : N) (k : gkey) (n : note) : server * list effect * bool :=
  match get_peers s k with
  | None => (s, [], false)
  | Some peers =>
      let '(s', es, _, failed) := group_signal s ((λ p, (p, true)) <$> filter (λ p, p ≠ from) peers) n in
      (s', es, bool_decide (failed = []))
  end.

(** 1112-1195 *)
Definition kick_from_group (s : server) (kicking : bool) (cid : N) (k : gkey) (peers : list N) : server * list effect * bool :=
  match remove_peers s k peers with
  | None => (s, [], false)
  | Some (s1, removed, remaining) =>
      let dc := if kicking then filter (λ p, p ≠ cid) removed else [] in
      let '(s2, es1, _, _) := group_signal s1 ((λ p, (p, true)) <$> dc) (NDisconnected k) in
      let '(s3, es2, _, _) := group_signal s2 ((λ p, (p, true)) <$> filter (λ p, p ≠ cid) remaining) (NLeft k removed) in
      (s3, es1 ++ es2, true)
  end.

(** group_broadcast.rs 1267-1273 *)
Definition permission_gate (cid : N) (k : gkey) : bool := cid =? k.1.

(** ** group_broadcast.rs 285-1053: the server handles one signal of the session [cid] *)
Definition handle (s : server) (cid : N) (r : req) : server * list effect :=
  match r with
  | RCreate id public invitees =>                       (* 303-327; session_manager.rs 1034-1070 *)
      match create_new_message_group s cid invitees id public with
      | (s', Some k) =>
          (s', mjoin ((λ p, default [] (direct s p (NInvitation cid k))) <$> invitees) ++ [Sent cid (NCreated (Some k))])
      | (s', None) => (s', [Sent cid (NCreated None)])
      end
  | RRequestJoin sender k =>                            (* 337-414 *)
      match get_group s k with
      | None => (s, [Sent cid (NNonExists k)])
      | Some _ =>
          match request_join (add_pending s k [cid]) cid k with
          | (s', None) => (s', [Sent cid (NNonExists k)])
          | (s', Some true) => (s', [Sent cid (NAccepted k true)])
          | (s', Some false) =>
              match direct s' k.1 (NRequestJoin sender k) with
              | Some e => (s', e ++ [Sent cid (NJoinPending k true)])
              | None => (s', [Sent cid (NJoinPending k false)])
              end
          end
      end
  | RList owner =>                                      (* 416-432 *)
      (s, [Sent cid (NGroups (match sv_groups s !! owner with
                              | Some m => (λ '(id, _), (owner, id)) <$> map_to_list m | None => [] end))])
  | REnd k =>                                           (* 454-471; session_manager.rs 1073-1107 *)
      if negb (permission_gate cid k) then (s, [])
      else match pl_remove_group s k with
           | (s', Some g) =>
               (s', mjoin ((λ p, default [] (direct s p (NDisconnected k))) <$> filter (λ p, p ≠ cid) (elements (mg_members g)))
                      ++ [Sent cid (NResponse k true)])
           | (s', None) => (s', [Sent cid (NResponse k false)])
           end
  | RMessage sender k m =>                              (* 496-530 *)
      let '(s', es, ok) := broadcast s cid k (NMessage sender k m) in (s', es ++ [Sent cid (NResponse k ok)])
  | RAccept target k =>                                 (* 570-612 *)
      match upgrade_peer s k target with
      | (s', true) =>
          let '(s'', es, _) := broadcast s' cid k (NEntered k [target]) in (s'', es ++ [Sent cid (NAccepted k true)])
      | (s', false) => (s', [Sent cid (NAccepted k false)])
      end
  | RDecline target k =>                                (* 614-646 *)
      let '(s', ok) := remove_pending s k target in
      match direct s' target (NDecline target k) with
      | Some e => (s', e ++ [Sent cid (NResponse k ok)])
      | None => (s', [Sent cid (NResponse k false)])
      end
  | RLeave k =>                                         (* 689-730 *)
      let '(s', es, ok) := kick_from_group s false cid k [cid] in (s', es ++ [Sent cid (NResponse k ok)])
  | RAdd k invitees =>                                  (* 752-819 *)
      if negb (permission_gate cid k) then (s, [])
      else match get_group s k with
           | None => (s, [Sent cid (NNonExists k)])
           | Some _ =>
               let '(s', es, okay, failed) := group_signal s ((λ p, (p, sv_mutual s cid p)) <$> invitees) (NInvitation cid k) in
               (add_pending s' k okay, es ++ [Sent cid (NAdded k failed)])
           end
  | RKick k peers =>                                    (* 834-863 *)
      if negb (permission_gate cid k) then (s, [])
      else let '(s', es, ok) := kick_from_group s true cid k peers in (s', es ++ [Sent cid (NResponse k ok)])
  | RKeyPackage k j pl => (s, default [] (direct s k.1 (NKeyPackage k j pl)))   (* 899-920 *)
  | RWelcome k j pl => (s, default [] (direct s j (NWelcome k j pl)))          (* 938-959 *)
  | RCommit k e pl => let '(s', es, _) := broadcast s cid k (NCommit k e pl) in (s', es)  (* 976-999 *)
  | RAssign k t pl => (s, default [] (direct s t (NAssign k t pl)))            (* 1012-1034 *)
  end.

(** ** One event *)
Inductive event :=
| EReq (cid : N) (r : req)        (* a signal of the session of an account *)
| EConnect (cid : N)
| EClear (cid : N)
| EShutdown (cid : N)
| EMail (to : N) (x : N).         (* other server code leaves mail for an account without a session
                                     (session_manager.rs 1341-1406) *)
Definition sv_step (s : server) (e : event) : server * list effect :=
  match e with
  | EReq cid r => handle s cid r
  | EConnect cid => connect s cid
  | EClear cid => (clear s cid, [])
  | EShutdown cid => (on_session_shutdown s cid, [])
  | EMail to x =>
      if bool_decide (to ∈ sv_sessions s) then (s, [Sent to (NOther x)])
      else (add_mail s to (NOther x), if bool_decide (to ∈ sv_accounts s) then [Mailed to (NOther x)] else [])
  end.
Fixpoint sv_run (s : server) (es : list event) : server * list effect :=
  match es with
  | [] => (s, [])
  | e :: rest => let '(s1, x) := sv_step s e in let '(s2, y) := sv_run s1 rest in (s2, x ++ y)
  end.
Definition sv_init (accounts : gset N) (mutual : N → N → bool) : server := mk_server accounts ∅ ∅ ∅ mutual.
