(** Model of the network mutex: two nodes that pass a lock and its value over an ordered link.

    Source: /repo/netbeam/src/sync/primitives/net_mutex.rs.  A node's local tokio mutex
    [shared_state] is held by at most one of: the background handler, an acquirer, a
    guard, the drop code of a guard; whoever holds it is the one that reads packets.  So
    a node is mainly the "mode" its local lock is in.

    Simplifications: the value is a number, and what a guard holder writes is the value
    at the moment the guard is dropped; (de)serialisation and sending do not fail; the
    timestamps of requests are arbitrary; the capacity 1 of the channel that wakes the
    background handler is left out (a blocked sender counts as a signal already sent);
    starting up (sync_establish_init, 233-268) is left out: both ends start with the value. *)
From stdpp Require Import prelude.
Local Open Scope Z_scope.

(** 339-346 *)
Inductive packet :=
| TryAcquire (t : Z)
| Released (v : N) (drop : bool)
| LockAcquired
| Halt
| ReleasedVerified.

Inductive mode :=
| Free                       (* nobody holds the local lock *)
| Bg                         (* the background handler holds it and waits for a packet: 519-529 *)
| BgYield                    (* the background handler is in yield_lock: 536-541 *)
| Trying (t : Z)             (* an acquirer has sent TryAcquire: 378-385 *)
| AcqYield                   (* an acquirer that lost is in yield_lock: 428 *)
| Guard                      (* the user holds a guard *)
| Dropping (adj : bool)      (* the drop code: 294-332 *)
| DropYield.                 (* the drop code in yield_lock: 314 *)

(** the background handler, while it does not hold the lock *)
Inductive bgstate :=
| BgLooping                  (* about to try_lock_owned: 517 *)
| BgAsleep                   (* in the Err branch, waiting for a signal: 566-571 *)
| BgDead.                    (* returned *)

Record mnode := mk_mnode {
  m_mode : mode;
  m_value : N;
  m_bg : bgstate;
  m_sig : nat;               (* signals for the background handler *)
  m_sent : nat;              (* lock() calls past the signal (371), not yet in the queue for the local lock *)
  m_queued : nat }.          (* lock() calls in the queue: 372-373 *)

Definition set_mode x n := mk_mnode x (m_value n) (m_bg n) (m_sig n) (m_sent n) (m_queued n).
Definition set_value x n := mk_mnode (m_mode n) x (m_bg n) (m_sig n) (m_sent n) (m_queued n).
Definition set_bg x n := mk_mnode (m_mode n) (m_value n) x (m_sig n) (m_sent n) (m_queued n).
Definition set_sig x n := mk_mnode (m_mode n) (m_value n) (m_bg n) x (m_sent n) (m_queued n).

(** The holder of the local lock is dropped with the alert (Drop for LocalLockHolder, 95-110). *)
Definition free_alert (n : mnode) : mnode := set_sig (S (m_sig n)) (set_mode Free n).
(** The background handler lets go and loops. *)
Definition free_bg (n : mnode) : mnode := set_bg BgLooping (set_mode Free n).
Definition bg_dies (n : mnode) : mnode := set_bg BgDead (set_mode Free n).

(** what a packet does: the node after, the packets sent, and whether a guard is handed out *)
Definition reply := (mnode * list packet * bool)%type.

(** yield_lock, 465-504: [fin] is what the caller does with the lock, [err] with an error *)
Definition yield_recv (n : mnode) (p : packet) (fin err : mnode → mnode) (g : bool) : reply :=
  match p with
  | Released v _ => (fin (set_value v n), [LockAcquired; ReleasedVerified], g)
  | Halt => (fin n, [], g)
  | ReleasedVerified | LockAcquired => (n, [], false)
  | TryAcquire _ => (err n, [], false)
  end.

(** 409-414 *)
Definition local_wins (initiator : bool) (local remote : Z) : bool :=
  if remote =? local then initiator else local <? remote.

Definition recv (initiator : bool) (n : mnode) (p : packet) : option reply :=
  match m_mode n with
  | Free | Guard => None                                        (* nobody reads *)
  | Bg =>                                                       (* 531-563 *)
      Some match p with
           | TryAcquire _ => (set_mode BgYield n, [Released (m_value n) false], false)
           | Released _ _ | ReleasedVerified | LockAcquired => (free_bg n, [], false)
           | Halt => (bg_dies n, [], false)
           end
  | BgYield => Some (yield_recv n p free_bg bg_dies false)
  | Trying t =>                                                 (* 387-447 *)
      Some match p with
           | Released v _ => (set_mode Guard (set_value v n), [LockAcquired; ReleasedVerified], true)
           | LockAcquired | ReleasedVerified => (n, [], false)
           | TryAcquire t' =>
               if local_wins initiator t t' then (set_mode Guard n, [LockAcquired], true)
               else (set_mode AcqYield n, [], false)
           | Halt => (free_alert n, [], false)
           end
  | AcqYield => Some (yield_recv n p (set_mode Guard) free_alert true)
  | Dropping adj =>                                             (* 306-331 *)
      Some match p with
           | ReleasedVerified => (if adj then set_mode DropYield n else free_alert n, [], false)
           | TryAcquire _ => (set_mode (Dropping true) n, [], false)
           | _ => (n, [], false)
           end
  | DropYield => Some (yield_recv n p free_alert free_alert false)
  end.

(** Both nodes ([true]: the initiator) and the packets each has sent that the other has not read. *)
Record mworld := mk_mworld { mw_node : bool → mnode; mw_out : bool → list packet }.
Definition mupd {A} (f : bool → A) (s : bool) (x : A) : bool → A := λ t, if Bool.eqb t s then x else f t.

Inductive mevent :=
| Signal (s : bool)                  (* lock() is called: it signals the background handler (371) *)
| Enqueue (s : bool)                 (* and asks for the local lock (372) *)
| Acquire (s : bool) (t : Z)         (* and gets it, and sends its request with the time [t] (378-381) *)
| BgTry (s : bool)                   (* 517 *)
| BgWake (s : bool)                  (* 522-526 and 567-570 *)
| DropGuard (s : bool) (v : N)       (* 175-190, 294-302, the value having become [v] *)
| Deliver (s : bool)                 (* the node reads the next packet *)
| Cancel (s : bool)                  (* the future of an acquirer is dropped *)
| DropMutex (s : bool).              (* 143-162; no lock() call is running, as that borrows the mutex *)

(** what an observer sees: a guard is handed out, exposing the value *)
Definition mstep (w : mworld) (e : mevent) : mworld * option (bool * N) :=
  let same := (w, None) in
  match e with
  | Signal s =>
      let n := mw_node w s in
      match m_bg n with
      | BgDead => same                                        (* the send fails *)
      | _ => (mk_mworld (mupd (mw_node w) s (mk_mnode (m_mode n) (m_value n) (m_bg n) (S (m_sig n)) (S (m_sent n)) (m_queued n))) (mw_out w), None)
      end
  | Enqueue s =>
      let n := mw_node w s in
      match m_sent n with
      | O => same
      | S k => (mk_mworld (mupd (mw_node w) s (mk_mnode (m_mode n) (m_value n) (m_bg n) (m_sig n) k (S (m_queued n)))) (mw_out w), None)
      end
  | Acquire s t =>
      let n := mw_node w s in
      match m_mode n, m_queued n with
      | Free, S k =>
          (mk_mworld (mupd (mw_node w) s (mk_mnode (Trying t) (m_value n) (m_bg n) (m_sig n) (m_sent n) k))
                     (mupd (mw_out w) s (mw_out w s ++ [TryAcquire t])), None)
      | _, _ => same
      end
  | BgTry s =>
      let n := mw_node w s in
      match m_bg n, m_mode n with
      | BgLooping, Free =>                                    (* a freed tokio mutex goes to the queue first *)
          match m_queued n with
          | O => (mk_mworld (mupd (mw_node w) s (set_mode Bg n)) (mw_out w), None)
          | S _ => (mk_mworld (mupd (mw_node w) s (set_bg BgAsleep n)) (mw_out w), None)
          end
      | BgLooping, (Bg | BgYield) => same                     (* the handler holds the lock itself *)
      | BgLooping, _ => (mk_mworld (mupd (mw_node w) s (set_bg BgAsleep n)) (mw_out w), None)
      | _, _ => same
      end
  | BgWake s =>
      let n := mw_node w s in
      match m_sig n with
      | O => same
      | S k =>
          match m_mode n, m_bg n with
          | Bg, _ => (mk_mworld (mupd (mw_node w) s (free_bg (set_sig k n))) (mw_out w), None)
          | BgYield, _ => same
          | _, BgAsleep => (mk_mworld (mupd (mw_node w) s (set_bg BgLooping (set_sig k n))) (mw_out w), None)
          | _, _ => same
          end
      end
  | DropGuard s v =>
      let n := mw_node w s in
      match m_mode n with
      | Guard => (mk_mworld (mupd (mw_node w) s (set_mode (Dropping false) (set_value v n)))
                            (mupd (mw_out w) s (mw_out w s ++ [Released v true])), None)
      | _ => same
      end
  | Deliver s =>
      match mw_out w (negb s) with
      | [] => same
      | p :: rest =>
          match recv s (mw_node w s) p with
          | None => same
          | Some (n, out, g) =>
              (mk_mworld (mupd (mw_node w) s n) (mupd (mupd (mw_out w) (negb s) rest) s (mw_out w s ++ out)),
               if g then Some (s, m_value n) else None)
          end
      end
  | Cancel s =>
      let n := mw_node w s in
      match m_mode n with
      | Trying _ | AcqYield => (mk_mworld (mupd (mw_node w) s (free_alert n)) (mw_out w), None)
      | _ => same
      end
  | DropMutex s =>
      let n := mw_node w s in
      match m_sent n, m_queued n, m_mode n with
      | O, O, (Bg | BgYield) => (mk_mworld (mupd (mw_node w) s (bg_dies n)) (mupd (mw_out w) s (mw_out w s ++ [Halt])), None)
      | O, O, (Free | Guard | Dropping _ | DropYield) =>
          (mk_mworld (mupd (mw_node w) s (set_bg BgDead n)) (mupd (mw_out w) s (mw_out w s ++ [Halt])), None)
      | _, _, _ => same
      end
  end.
(** The guards handed out, in order. *)
Fixpoint mrun (w : mworld) (es : list mevent) : mworld * list (bool * N) :=
  match es with
  | [] => (w, [])
  | e :: rest =>
      let '(w1, o) := mstep w e in let '(w2, os) := mrun w1 rest in
      (w2, match o with Some x => x :: os | None => os end)
  end.

(** 113-142 on both ends, with the agreed value *)
Definition mnode_init (v : N) : mnode := mk_mnode Free v BgLooping 0 0 0.
Definition mworld_init (v : N) : mworld := mk_mworld (λ _, mnode_init v) (λ _, []).
