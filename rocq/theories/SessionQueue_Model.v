(** The timers of a session.

    Source: citadel_proto/src/proto/session_queue_handler.rs
    - 51-57    reserved indices
    - 125-146  insert_ordinary (through the handle)
    - 112-123  insert_oneshot (through the handle)
    - 148-158  QueueWorkerTicket, QueueWorkerResult
    - 190-208  insert_reserved
    - 232-296  poll_purge
    - 305-322  poll_next

    Simplifications.
    - The callback of a registration is the number of the registration; the
      answer of a callback is an input of the model.
    - The message through which the handle passes a registration on and its
      insertion by the worker are one event.
    - The [DelayQueue] is a map from the registration to its ticket and its
      deadline; which of the expired entries comes first is an input.  (In
      the code the queue has one entry per insertion as well; the number is
      the identity of that entry.)
    - [usize] has 64 bits and additions wrap around (release builds).
    - The worker stops when a callback ends the session.  That a session that
      is already disconnecting ends the worker too is left out. *)
From Coq Require Import ZifyBool ZifyNat ZifyN.
From stdpp Require Import prelude gmap.
Local Open Scope N_scope.

(** 148-152 *)
Inductive ticket := Oneshot (idx cid : N) | Periodic (idx cid : N).
Global Instance ticket_eq_dec : EqDecision ticket.
Proof. solve_decision. Defined.
Global Instance ticket_countable : Countable ticket.
Proof.
  refine (inj_countable'
    (λ t, match t with Oneshot i c => inl (i, c) | Periodic i c => inr (i, c) end)
    (λ s, match s with inl (i, c) => Oneshot i c | inr (i, c) => Periodic i c end)
    _).
  by intros [].
Defined.

(** 153-158 *)
Inductive qresult := Complete | Incomplete | EndSession | Adjust (d : N).

Inductive registration :=
| KReserved (t : ticket)       (* worker.insert_reserved(Some(t), ..) *)
| KOneshot                     (* handle.insert_oneshot(..) *)
| KOrdinary (idx cid : N).     (* handle.insert_ordinary(idx, cid, ..) *)

Inductive q_event :=
| QInsert (k : registration) (timeout : N)
| QTick (d : N)
| QExpire (id : N) (answer : qresult).

Inductive q_out :=
| QNone
| QFired (id cb : N)   (* the expiry of [id] called the callback [cb] *)
| QPanic.
Global Instance q_out_eq_dec : EqDecision q_out.
Proof. solve_decision. Defined.

Record queue := Queue {
  q_now : N;
  q_entries : gmap ticket (N * N);    (* callback, period *)
  q_exp : gmap N (ticket * N);        (* registration -> ticket, deadline *)
  q_rolling : N;                      (* SessionQueueWorker::rolling_idx *)
  q_handle : N;                       (* SessionQueueWorkerHandle::rolling_idx *)
  q_next : N;
  q_dead : bool }.

Definition q0 : queue := Queue 0 ∅ ∅ 0 0 0 false.

Definition U64 : N := 2 ^ 64.
Definition RESERVED : N := 10.

(** 125-146, 112-123, 199-203: the ticket of a registration. *)
Definition ticket_of (q : queue) (k : registration) : ticket :=
  match k with
  | KReserved t => t
  | KOneshot => Oneshot ((q_rolling q + RESERVED + 1) mod U64) 0
  | KOrdinary idx cid =>
      Periodic ((idx + RESERVED + q_handle q) mod U64) cid
  end.

Definition is_ordinary (k : registration) : bool :=
  match k with KOrdinary _ _ => true | _ => false end.

(** 190-208 *)
Definition q_insert (q : queue) (k : registration) (timeout : N) : queue :=
  let t := ticket_of q k in
  Queue (q_now q)
    (<[t := (q_next q, timeout)]> (q_entries q))
    (<[q_next q := (t, q_now q + timeout)]> (q_exp q))
    (q_rolling q + 1)
    (if is_ordinary k then q_handle q + 1 else q_handle q)
    (q_next q + 1) (q_dead q).

Definition with_exp (e : gmap N (ticket * N)) (q : queue) : queue :=
  Queue (q_now q) (q_entries q) e (q_rolling q) (q_handle q) (q_next q)
    (q_dead q).
Definition with_entries (e : gmap ticket (N * N)) (q : queue) : queue :=
  Queue (q_now q) e (q_exp q) (q_rolling q) (q_handle q) (q_next q)
    (q_dead q).
Definition dead (q : queue) : queue :=
  Queue (q_now q) (q_entries q) (q_exp q) (q_rolling q) (q_handle q)
    (q_next q) true.

(** 245-288 *)
Definition q_expire (q : queue) (id : N) (t : ticket) (answer : qresult)
  : queue * q_out :=
  let q := with_exp (delete id (q_exp q)) q in
  match t with
  | Oneshot _ _ =>
      match q_entries q !! t with
      | None => (dead q, QPanic)
      | Some (cb, _) =>
          let q := with_entries (delete t (q_entries q)) q in
          match answer with
          | EndSession => (dead q, QFired id cb)
          | _ => (q, QFired id cb)
          end
      end
  | Periodic _ _ =>
      match q_entries q !! t with
      | None => (dead q, QPanic)
      | Some (cb, period) =>
          match answer with
          | Complete => (with_entries (delete t (q_entries q)) q, QFired id cb)
          | EndSession => (dead q, QFired id cb)
          | Adjust d =>
              (with_exp (<[id := (t, q_now q + d)]> (q_exp q)) q, QFired id cb)
          | Incomplete =>
              (with_exp (<[id := (t, q_now q + period)]> (q_exp q)) q,
               QFired id cb)
          end
      end
  end.

Definition q_step (q : queue) (e : q_event) : queue * q_out :=
  if q_dead q then (q, QNone) else
  match e with
  | QInsert k timeout => (q_insert q k timeout, QNone)
  | QTick d =>
      (Queue (q_now q + d) (q_entries q) (q_exp q) (q_rolling q) (q_handle q)
         (q_next q) (q_dead q), QNone)
  | QExpire id answer =>
      match q_exp q !! id with
      | Some (t, due) =>
          if due <=? q_now q then q_expire q id t answer else (q, QNone)
      | None => (q, QNone)
      end
  end.

Fixpoint q_run (q : queue) (es : list q_event) : list q_out :=
  match es with
  | [] => []
  | e :: es => (q_step q e).2 :: q_run (q_step q e).1 es
  end.
