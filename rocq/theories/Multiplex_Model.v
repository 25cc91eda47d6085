(** Model of the multiplexed connection under every operation of netbeam: opening, using and closing
    subscriptions of two nodes over one reliable ordered connection.

    Sources:
    - netbeam/src/multiplex.rs 66-136, 157-206, 341-397 (ids, reserved subscriptions, subscribe)
    - netbeam/src/sync/network_application.rs 65-180, 300-394 (forwarding, PreActionSync, PostActionSync)
    - netbeam/src/sync/subscription.rs 110-161 (sending, receiving, close sequence)

    Simplifications.
    - The underlying connection loses nothing and keeps the order; its errors are not modelled.
    - Openings of one node queue up at the mutex of the PreActionChannel; the model knows only the one that has it.
    - The close sequence of a dropped subscription is a task of its own, which starts some time after the drop.
      Tokio's mutex is fair, so that the waiters for the mutex of the PostActionChannel are a queue.
    - The mutex around the senders of the PostActionChannel is never held for long and is left out.
    - Payloads are numbers. *)
From Coq Require Import ZifyBool ZifyNat ZifyN.
From stdpp Require Import prelude gmap.
Local Open Scope N_scope.

(** network_application.rs 65: INITIAL_CAPACITY *)
Definition capacity : N := 32.

(** multiplex.rs 157-166 *)
Inductive packet :=
| App (id m : N)        (* ApplicationLayer *)
| PostDrop (id : N)
| PreCreate (id : N).
Global Instance packet_eq_dec : EqDecision packet.
Proof. solve_decision. Defined.

(** multiplex.rs 131-136 MemorySender, with the channel it belongs to *)
Record sub := mk_sub {
  s_rx : option (list N);  (* what is unread; [None]: the receiving half is dropped *)
  s_res : bool }.          (* pre_reserved_rx is still there *)

(** network_application.rs 300-345: where an opening waits *)
Inductive phase :=
| WaitCreate              (* initiator: for PreCreate (335-338) *)
| WantLock (id : N)       (* for the mutex in setup_channel (319, 340; 108-112) *)
| WaitReply (id : N).     (* receiver: for PreCreate (322-325) *)

(** holders and waiters of the mutex around the receivers of the PostActionChannel: [recv] (98-106) keeps it
    until the signal is there, since the guard is a temporary of the expression that awaits the signal *)
Inductive request := LSetup (id : N) | LClose (id : N).
Global Instance request_eq_dec : EqDecision request.
Proof. solve_decision. Defined.

(** multiplex.rs 113-128 *)
Record endp := mk_endp {
  e_subs : gmap N sub;       (* subscribers *)
  e_latest : N;              (* current_latest_subscribed *)
  e_gen : N;                 (* id_gen *)
  e_pre : list N;            (* the PreActionChannel, of capacity one *)
  e_open : option phase;     (* the opening under way *)
  e_tx : gset N;             (* senders of the PostActionChannel *)
  e_rx : gset N;             (* its receivers *)
  e_sig : gset N;            (* signals that were given *)
  e_spawn : list N;          (* close sequences that have not begun *)
  e_lock : list request;     (* the holder of the mutex, then the waiters *)
  e_ops : list N;            (* the subscriptions handed to the user, in order *)
  e_sent : list (N * N);     (* what the user sent: subscription, message *)
  e_got : list (N * N) }.    (* what the user received *)

Inductive act :=
(* the user *)
| Open | Cancel | Send (id m : N) | Recv (id : N) | Drop (id : N)
(* the node *)
| Setup | Opened | BeginClose (id : N) | Close
(* the forwarder: a packet arrives *)
| Arrive (p : packet).

(** the ids 1, …, 32 *)
Definition reserved : list N := N.of_nat <$> seq 1 (N.to_nat capacity).
(** multiplex.rs 170-206, network_application.rs 116-128 *)
Definition new_endp : endp :=
  mk_endp (list_to_map ((λ i, (i, mk_sub (Some []) true)) <$> reserved)) 0 capacity [] None
    (list_to_set reserved) (list_to_set reserved) ∅ [] [] [] [] [].

(** multiplex.rs 354-382 subscribe; whether its assertion holds *)
Definition subscribe (e : endp) (id : N) : endp * bool :=
  (mk_endp (<[id := mk_sub (Some []) false]> (e_subs e)) (N.max (e_latest e) id) (e_gen e) (e_pre e) (e_open e) (e_tx e) (e_rx e) (e_sig e) (e_spawn e)
     (e_lock e) (e_ops e) (e_sent e) (e_got e),
   bool_decide (e_subs e !! id = None)).
Definition with_open (e : endp) (o : option phase) : endp :=
  mk_endp (e_subs e) (e_latest e) (e_gen e) (e_pre e) o (e_tx e) (e_rx e) (e_sig e) (e_spawn e) (e_lock e) (e_ops e) (e_sent e) (e_got e).
Definition with_pre (e : endp) (l : list N) : endp :=
  mk_endp (e_subs e) (e_latest e) (e_gen e) l (e_open e) (e_tx e) (e_rx e) (e_sig e) (e_spawn e) (e_lock e) (e_ops e) (e_sent e) (e_got e).
Definition with_subs (e : endp) (m : gmap N sub) : endp :=
  mk_endp m (e_latest e) (e_gen e) (e_pre e) (e_open e) (e_tx e) (e_rx e) (e_sig e) (e_spawn e) (e_lock e) (e_ops e) (e_sent e) (e_got e).
Definition with_lock (e : endp) (l : list request) : endp :=
  mk_endp (e_subs e) (e_latest e) (e_gen e) (e_pre e) (e_open e) (e_tx e) (e_rx e) (e_sig e) (e_spawn e) l (e_ops e) (e_sent e) (e_got e).
Definition with_post (e : endp) (tx rx sg : gset N) : endp :=
  mk_endp (e_subs e) (e_latest e) (e_gen e) (e_pre e) (e_open e) tx rx sg (e_spawn e) (e_lock e) (e_ops e) (e_sent e) (e_got e).
Definition with_spawn (e : endp) (l : list N) : endp :=
  mk_endp (e_subs e) (e_latest e) (e_gen e) (e_pre e) (e_open e) (e_tx e) (e_rx e) (e_sig e) l (e_lock e) (e_ops e) (e_sent e) (e_got e).
Definition with_ops (e : endp) (l : list N) : endp :=
  mk_endp (e_subs e) (e_latest e) (e_gen e) (e_pre e) (e_open e) (e_tx e) (e_rx e) (e_sig e) (e_spawn e) (e_lock e) l (e_sent e) (e_got e).
Definition with_ids (e : endp) (latest gen : N) : endp :=
  mk_endp (e_subs e) latest gen (e_pre e) (e_open e) (e_tx e) (e_rx e) (e_sig e) (e_spawn e) (e_lock e) (e_ops e) (e_sent e) (e_got e).
Definition with_log (e : endp) (sent got : list (N * N)) : endp :=
  mk_endp (e_subs e) (e_latest e) (e_gen e) (e_pre e) (e_open e) (e_tx e) (e_rx e) (e_sig e) (e_spawn e) (e_lock e) (e_ops e) sent got.

(** multiplex.rs 341-352 get_next_prereserved *)
Definition get_next_prereserved (e : endp) : option (endp * N) :=
  let next := e_latest e + 1 in
  match e_subs e !! next with
  | Some s => if s_res s then Some (with_ids (with_subs e (<[next := mk_sub (s_rx s) false]> (e_subs e))) next (e_gen e), next) else None
  | None => None
  end.

(** the first statement of setup_channel (110), then the wait for the other mutex (111) *)
Definition begin_setup (e : endp) (id : N) : endp :=
  with_open (with_lock (with_post e ({[id]} ∪ e_tx e) (e_rx e) (e_sig e)) (e_lock e ++ [LSetup id])) (Some (WantLock id)).

(** Drop for OwnedMultiplexedSubscription, which spawns the close sequence: multiplex.rs 393-397, subscription.rs 135-161 *)
Definition drop_sub (e : endp) (id : N) : endp :=
  match e_subs e !! id with
  | Some s => with_spawn (with_subs e (<[id := mk_sub None (s_res s)]> (e_subs e))) (e_spawn e ++ [id])
  | None => e
  end.

(** one step of a node ([r]: its type is Receiver): its new state, what it sends, and whether no assertion failed *)
Definition act_step (r : bool) (e : endp) (a : act) : option (endp * list packet * bool) :=
  match a with
  | Open =>
      (* preaction_sync, 308-345 *)
      match e_open e with
      | Some _ => None
      | None =>
          match get_next_prereserved e with
          | Some (e', id) => Some (with_ops e' (e_ops e' ++ [id]), [], true)
          | None =>
              if r then
                let id := e_gen e + 1 in
                let '(e', ok) := subscribe (with_ids e (e_latest e) id) id in
                Some (begin_setup e' id, [], ok)
              else Some (with_open e (Some WaitCreate), [], true)
          end
      end
  | Setup =>
      (* the second statement of setup_channel, then send_pre_open_signal (321, 341) *)
      match e_lock e, e_open e with
      | LSetup id :: rest, Some (WantLock id') =>
          let e1 := with_lock (with_post e (e_tx e) ({[id]} ∪ e_rx e) (e_sig e)) rest in
          if r then Some (with_open e1 (Some (WaitReply id')), [PreCreate id'], true)
          else Some (with_ops (with_open e1 None) (e_ops e ++ [id']), [PreCreate id'], true)
      | _, _ => None
      end
  | Opened =>
      match e_pre e, e_open e with
      | id :: rest, Some (WaitReply id') => Some (with_ops (with_open (with_pre e rest) None) (e_ops e ++ [id']), [], true)   (* 322-331; another id is only logged *)
      | id :: rest, Some WaitCreate =>
          let '(e', ok) := subscribe (with_pre e rest) id in Some (begin_setup e' id, [], ok)   (* 335-340 *)
      | _, _ => None
      end
  | Cancel =>
      (* the future is dropped, and with it the subscription it has made *)
      match e_open e with
      | None => None
      | Some WaitCreate => Some (with_open e None, [], true)
      | Some (WantLock id) =>
          Some (drop_sub (with_lock (with_open e None) (filter (λ q, q ≠ LSetup id) (e_lock e))) id, [], true)
      | Some (WaitReply id) => Some (drop_sub (with_open e None) id, [], true)
      end
  | Send id m =>
      (* subscription.rs 112-120 *)
      match e_subs e !! id with
      | Some (mk_sub (Some _) _) => if bool_decide (id ∈ e_ops e) then Some (with_log e (e_sent e ++ [(id, m)]) (e_got e), [App id m], true) else None
      | _ => None
      end
  | Recv id =>
      (* 122-132 *)
      match e_subs e !! id with
      | Some (mk_sub (Some (m :: l)) b) =>
          if bool_decide (id ∈ e_ops e) then Some (with_log (with_subs e (<[id := mk_sub (Some l) b]> (e_subs e))) (e_sent e) (e_got e ++ [(id, m)]), [], true) else None
      | _ => None
      end
  | Drop id =>
      match e_subs e !! id with
      | Some (mk_sub (Some _) _) => if bool_decide (id ∈ e_ops e) then Some (drop_sub e id, [], true) else None
      | _ => None
      end
  | BeginClose id =>
      (* postaction_sync (network_application.rs 371-394) up to the wait for the mutex *)
      if bool_decide (id ∈ e_spawn e) then
        Some (with_lock (with_spawn e (filter (λ i, i ≠ id) (e_spawn e))) (e_lock e ++ [LClose id]), if r then [PostDrop id] else [], true)
      else None
  | Close =>
      (* the rest of the close sequence: [recv] (98-106), the answer of the initiator (390), [close] (subscription.rs 144-147) *)
      match e_lock e with
      | LClose id :: rest =>
          if bool_decide (id ∈ e_rx e) then
            if bool_decide (id ∈ e_sig e) then
              Some (with_subs (with_lock (with_post e (e_tx e) (e_rx e ∖ {[id]}) (e_sig e)) rest) (delete id (e_subs e)), if r then [] else [PostDrop id], true)
            else None
          else Some (with_subs (with_lock e rest) (delete id (e_subs e)), [], true)
      | _ => None
      end
  | Arrive p =>
      (* forward_packet, 161-180 *)
      match p with
      | App id m =>
          match e_subs e !! id with
          | Some (mk_sub (Some l) b) => Some (with_subs e (<[id := mk_sub (Some (l ++ [m])) b]> (e_subs e)), [], true)
          | _ => Some (e, [], true)
          end
      | PreCreate id => match e_pre e with [] => Some (with_pre e [id], [], true) | _ => None end   (* a full channel: the forwarder waits *)
      | PostDrop id =>
          if bool_decide (id ∈ e_tx e) then Some (with_post e (e_tx e ∖ {[id]}) (e_rx e) ({[id]} ∪ e_sig e), [], true) else Some (e, [], true)
      end
  end.

(** ** Two nodes *)
Record world := mk_world { w_r : endp; w_i : endp; to_r : list packet; to_i : list packet; w_ok : bool }.
Definition init : world := mk_world new_endp new_endp [] [] true.
Inductive event := At (r : bool) (a : act) | Deliver (r : bool).
Definition step (w : world) (ev : event) : option world :=
  match ev with
  | At _ (Arrive _) => None
  | At true a => match act_step true (w_r w) a with Some (e, ps, ok) => Some (mk_world e (w_i w) (to_r w) (to_i w ++ ps) (w_ok w && ok)) | None => None end
  | At false a => match act_step false (w_i w) a with Some (e, ps, ok) => Some (mk_world (w_r w) e (to_r w ++ ps) (to_i w) (w_ok w && ok)) | None => None end
  | Deliver true =>
      match to_r w with
      | p :: rest => match act_step true (w_r w) (Arrive p) with Some (e, ps, ok) => Some (mk_world e (w_i w) rest (to_i w ++ ps) (w_ok w && ok)) | None => None end
      | [] => None
      end
  | Deliver false =>
      match to_i w with
      | p :: rest => match act_step false (w_i w) (Arrive p) with Some (e, ps, ok) => Some (mk_world (w_r w) e (to_r w ++ ps) rest (w_ok w && ok)) | None => None end
      | [] => None
      end
  end.
Fixpoint run (w : world) (es : list event) : option world :=
  match es with [] => Some w | ev :: es' => match step w ev with Some w' => run w' es' | None => None end end.

Definition get (r : bool) (w : world) : endp := if r then w_r w else w_i w.
Definition queue (r : bool) (w : world) : list packet := if r then to_r w else to_i w.
