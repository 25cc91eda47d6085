(** Model of the network read-write lock: two nodes that pass read and write access to a
    value over an ordered link.

    Source: /repo/netbeam/src/sync/primitives/net_rwlock.rs.  As for the network mutex, a
    node's local tokio mutex [shared] is held by at most one of: the background handler,
    an acquirer, guards, the drop code of a guard; whoever holds it reads the packets.  A
    read lock is an Arc around the guard of that mutex; the Arc is shared by the read
    guards of the node, by the store [local_active_read_lock], and by the handler or the
    drop code while they are at work with it.

    Simplifications: the value is a number; (de)serialisation and sending do not fail; the
    times of requests are arbitrary; dropping a guard is one step (the test of the count of
    references and what follows from it, 263-274, are not interrupted by another thread);
    the capacity 1 of the channel that wakes the background handler is left out; no read()
    or write() future is dropped before it is done and the lock itself is not dropped, so
    there is no Halt (168-186); both ends start with the same value. *)
From stdpp Require Import prelude.
Local Open Scope Z_scope.

(** LockType, 424-427 *)
Inductive kind := KRead | KWrite.
Global Instance kind_eq_dec : EqDecision kind.
Proof. solve_decision. Defined.

(** UpdatePacket, 872-879; the kinds inside LockAcquired and ReleasedVerified are never looked at *)
Inductive packet :=
| TryAcquire (t : Z) (k : kind)
| ReleasedWrite (v : N)
| ReleasedRead
| LockAcquired
| ReleasedVerified.

(** In [Trying] and [AcqYield], [want] is the kind asked for by the user and [cur] the kind
    of the lock that the acquirer holds at the moment (owned_local_lock). *)
Inductive mode :=
| Free                              (* nobody holds the local lock *)
| Bg                                (* the background handler holds it and waits for a packet: 625-634 *)
| BgYield (k : kind)                (* the background handler is in yield_lock: 653 *)
| Trying (want cur : kind) (t : Z)  (* an acquirer has sent TryAcquire: 719-724 *)
| AcqYield (want cur : kind) (t : Z)(* an acquirer that lost is in yield_lock: 834 *)
| Readers                           (* the read lock is held by read guards, or by the store alone *)
| Writer                            (* the user holds a write guard around a write lock *)
| Odd (want : kind)                 (* the user holds a guard of kind [want] around a lock of the other kind *)
| Dropping (k : kind) (adj : bool)  (* the drop code: 374-419 *)
| DropYield (k : kind).             (* the drop code in yield_lock: 400 *)

(** the background handler, while it does not hold the lock *)
Inductive bgstate :=
| BgLooping                         (* about to try_lock_owned: 624 *)
| BgAsleep.                         (* in the Err branch, waiting for a signal: 678-684 *)

Record rnode := mk_rnode {
  r_mode : mode;
  r_store : bool;                   (* local_active_read_lock is set: it holds the Arc of the read lock *)
  r_readers : nat;                  (* read guards of the user around that Arc *)
  r_value : N;
  r_bg : bgstate;
  r_sig : nat;                      (* signals for the background handler *)
  r_sent : list kind;               (* calls past the signal (706), not yet in the queue for the local lock *)
  r_queued : list kind }.           (* calls in the queue: 707 *)

Definition set_mode x n := mk_rnode x (r_store n) (r_readers n) (r_value n) (r_bg n) (r_sig n) (r_sent n) (r_queued n).
Definition set_store x n := mk_rnode (r_mode n) x (r_readers n) (r_value n) (r_bg n) (r_sig n) (r_sent n) (r_queued n).
Definition set_readers x n := mk_rnode (r_mode n) (r_store n) x (r_value n) (r_bg n) (r_sig n) (r_sent n) (r_queued n).
Definition set_value x n := mk_rnode (r_mode n) (r_store n) (r_readers n) x (r_bg n) (r_sig n) (r_sent n) (r_queued n).
Definition set_bg x n := mk_rnode (r_mode n) (r_store n) (r_readers n) (r_value n) x (r_sig n) (r_sent n) (r_queued n).
Definition set_sig x n := mk_rnode (r_mode n) (r_store n) (r_readers n) (r_value n) (r_bg n) x (r_sent n) (r_queued n).
Definition set_sent x n := mk_rnode (r_mode n) (r_store n) (r_readers n) (r_value n) (r_bg n) (r_sig n) x (r_queued n).
Definition set_queued x n := mk_rnode (r_mode n) (r_store n) (r_readers n) (r_value n) (r_bg n) (r_sig n) (r_sent n) x.

(** The reference held by the handler, the drop code or an odd write guard, if theirs is a read lock. *)
Definition held_ref (m : mode) : nat :=
  match m with BgYield KRead | Dropping KRead _ | DropYield KRead | Odd KWrite => 1 | _ => 0 end.
(** Arc::strong_count of the read lock *)
Definition arcs (n : rnode) : nat := (if r_store n then 1 else 0) + r_readers n + held_ref (r_mode n).

(** The handler or the drop code lets go of its lock; a read lock stays locked as long as
    there are other references. *)
Definition let_go (k : kind) (n : rnode) : rnode :=
  match k with
  | KWrite => set_mode Free n
  | KRead => if r_store n || negb (r_readers n =? 0)%nat then set_mode Readers n else set_mode Free n
  end.
(** Drop for LocalLockHolder (532-545) alerts the background handler ... *)
Definition alert (n : rnode) : rnode := set_sig (S (r_sig n)) n.
(** ... and the handler itself loops. *)
Definition loops (n : rnode) : rnode := set_bg BgLooping n.

(** What yield_lock (552-564) and the drop code (361-372) send first. *)
Definition release (k : kind) (v : N) : packet := match k with KRead => ReleasedRead | KWrite => ReleasedWrite v end.

(** 655-662: after a yield, the handler clears the store if nobody read here meanwhile. *)
Definition bg_done (k : kind) (n : rnode) : rnode :=
  match k with
  | KWrite => loops (let_go KWrite n)
  | KRead => if (arcs n =? 2)%nat then loops (let_go KRead (set_store false n)) else loops (let_go KRead n)
  end.

(** yield_lock, 566-609: the value taken over, and whether the lock comes back *)
Definition yield_recv (k : kind) (n : rnode) (p : packet) : option rnode :=
  match k, p with
  | KWrite, ReleasedWrite v => Some (set_value v n)
  | KRead, ReleasedRead => Some n
  | _, _ => None
  end.

(** what acquire_lock ends with (751-756): the guard is of the kind the caller asked for *)
Definition grant (want cur : kind) (n : rnode) : rnode :=
  let n := match cur with KRead => set_store true n | KWrite => n end in
  match want, cur with
  | KRead, KRead => set_mode Readers (set_readers (S (r_readers n)) n)
  | KWrite, KWrite => set_mode Writer n
  | _, _ => set_mode (Odd want) n
  end.

(** who of two requesters goes first: 797-801 *)
Definition local_wins (initiator : bool) (local remote : Z) : bool :=
  if remote =? local then initiator else local <? remote.

(** the node after a packet, the packets sent, and the kind of the guard handed out *)
Definition reply := (rnode * list packet * option kind)%type.

Definition recv (initiator : bool) (n : rnode) (p : packet) : option reply :=
  match r_mode n with
  | Free | Readers | Writer | Odd _ => None                     (* nobody reads *)
  | Bg =>                                                       (* 636-675 *)
      Some match p with
           | TryAcquire _ k =>
               (set_mode (BgYield k) match k with KRead => set_store true n | KWrite => n end, [release k (r_value n)], None)
           | _ => (loops (set_mode Free n), [], None)
           end
  | BgYield k =>
      Some match yield_recv k n p with
           | Some n' => (bg_done k n', [ReleasedVerified], None)
           | None => (n, [], None)
           end
  | Trying want cur t =>                                        (* 729-867 *)
      Some match p with
           | ReleasedWrite v => (grant want cur (set_value v n), [ReleasedVerified; LockAcquired], Some want)
           | ReleasedRead => (grant want cur n, [ReleasedVerified; LockAcquired], Some want)
           | LockAcquired | ReleasedVerified => (n, [], None)
           | TryAcquire t' k =>
               match k, cur with
               | KRead, KRead => (grant want cur n, [ReleasedRead], Some want)            (* 782-795 *)
               | _, _ =>
                   if local_wins initiator t t' then (grant want cur n, [LockAcquired], Some want)
                   else                                                                   (* 814-831 *)
                     let n := match cur, k with KRead, KWrite => set_store false n | _, _ => n end in
                     (set_mode (AcqYield want k t) n, [release k (r_value n)], None)
               end
           end
  | AcqYield want cur t =>
      (* The lock is now of the kind of the remote's request, so the "undo" (837-855), which
         asks whether the two differ, does nothing. *)
      Some match yield_recv cur n p with
           | Some n' => (set_mode (Trying want cur t) n', [ReleasedVerified], None)
           | None => (n, [], None)
           end
  | Dropping k adj =>                                           (* 376-419 *)
      Some match p with
           | ReleasedRead => (n, match k with KRead => [ReleasedVerified] | KWrite => [] end, None)
           | ReleasedVerified =>
               if adj then (set_mode (DropYield k) n, [release k (r_value n)], None) else (alert (let_go k n), [], None)
           | TryAcquire _ _ => (set_mode (Dropping k true) n, [], None)
           | ReleasedWrite _ | LockAcquired => (n, [], None)
           end
  | DropYield k =>
      Some match yield_recv k n p with
           | Some n' => (alert (let_go k n'), [ReleasedVerified], None)
           | None => (n, [], None)
           end
  end.

(** Both nodes ([true]: the initiator) and the packets each has sent that the other has not read. *)
Record rworld := mk_rworld { rw_node : bool → rnode; rw_out : bool → list packet }.
Definition rupd {A} (f : bool → A) (s : bool) (x : A) : bool → A := λ t, if Bool.eqb t s then x else f t.
(** node [s] becomes [n] and sends [out] *)
Definition put (w : rworld) (s : bool) (n : rnode) (out : list packet) : rworld :=
  mk_rworld (rupd (rw_node w) s n) (rupd (rw_out w) s (rw_out w s ++ out)).

Inductive revent :=
| Call (s : bool) (k : kind)         (* read() or write() is called: 222-250, 297-305 and 706 *)
| Enqueue (s : bool) (i : nat)       (* the [i]th of the calls past the signal asks for the local lock: 707 *)
| Acquire (s : bool) (t : Z)         (* the first in the queue gets it and sends its request with the time [t]: 707-721 *)
| BgTry (s : bool)                   (* 624 *)
| BgWake (s : bool)                  (* 629-633 and 678-684 *)
| Mutate (s : bool) (v : N)          (* the user writes [v] through the write guard: DerefMut, 315-319 *)
| DropRead (s : bool)                (* a read guard is dropped: 260-275 *)
| DropWrite (s : bool)               (* a write guard is dropped: 321-329 *)
| Deliver (s : bool).                (* the node reads the next packet *)

(** what an observer sees *)
Inductive robs :=
| Granted (s : bool) (k : kind) (v : N)   (* a guard of kind [k] is handed out, exposing [v] *)
| Panics (s : bool).                      (* the use of a guard panics *)

Definition rstep (w : rworld) (e : revent) : rworld * option robs :=
  let same := (w, None) in
  match e with
  | Call s k =>
      let n := rw_node w s in
      match k with
      | KRead =>
          if r_store n && (1 <? arcs n)%nat
          then (put w s (set_readers (S (r_readers n)) n) [], Some (Granted s KRead (r_value n)))
          else (put w s (alert (set_sent (r_sent n ++ [KRead]) n)) [], None)
      | KWrite => (put w s (alert (set_sent (r_sent n ++ [KWrite]) n)) [], None)
      end
  | Enqueue s i =>
      let n := rw_node w s in
      match r_sent n !! i with
      | None => same
      | Some k => (put w s (set_queued (r_queued n ++ [k]) (set_sent (delete i (r_sent n)) n)) [], None)
      end
  | Acquire s t =>
      let n := rw_node w s in
      match r_mode n, r_queued n with
      | Free, k :: q => (put w s (set_mode (Trying k k t) (set_queued q n)) [TryAcquire t k], None)
      | _, _ => same
      end
  | BgTry s =>
      let n := rw_node w s in
      match r_bg n, r_mode n with
      | BgLooping, Free =>                                    (* a freed tokio mutex goes to the queue first *)
          match r_queued n with
          | [] => (put w s (set_mode Bg n) [], None)
          | _ :: _ => (put w s (set_bg BgAsleep n) [], None)
          end
      | BgLooping, (Bg | BgYield _) => same                   (* the handler holds the lock itself *)
      | BgLooping, _ => (put w s (set_bg BgAsleep n) [], None)
      | BgAsleep, _ => same
      end
  | BgWake s =>
      let n := rw_node w s in
      match r_sig n with
      | O => same
      | S k =>
          match r_mode n, r_bg n with
          | Bg, _ => (put w s (loops (set_mode Free (set_sig k n))) [], None)
          | BgYield _, _ => same
          | _, BgAsleep => (put w s (loops (set_sig k n)) [], None)
          | _, BgLooping => same
          end
      end
  | Mutate s v =>
      let n := rw_node w s in
      match r_mode n with
      | Writer => (put w s (set_value v n) [], None)
      | Odd KWrite => (w, Some (Panics s))                    (* assert_write_mut, 471-478 *)
      | _ => same
      end
  | DropRead s =>
      let n := rw_node w s in
      match r_mode n, r_readers n with
      | Odd KRead, _ => (put w s (alert (set_mode Free n)) [], Some (Panics s))   (* arc_strong_count().unwrap(), 264 *)
      | _, O => same
      | m, S r =>
          if (arcs n =? 2)%nat then
            match m with                                      (* the last guard of the node: 264-274 *)
            | Readers => (put w s (set_mode (Dropping KRead false) (set_store false (set_readers r n))) [ReleasedRead], None)
            | _ => same                                       (* does not arise: there are at least three references *)
            end
          else
            let n := alert (set_readers r n) in
            (put w s match m with Readers => let_go KRead n | _ => n end [], None)
      end
  | DropWrite s =>
      let n := rw_node w s in
      match r_mode n with
      | Writer => (put w s (set_mode (Dropping KWrite false) n) [ReleasedWrite (r_value n)], None)
      | Odd KWrite => (put w s (set_mode (Dropping KRead false) n) [ReleasedRead], None)
      | _ => same
      end
  | Deliver s =>
      match rw_out w (negb s) with
      | [] => same
      | p :: rest =>
          match recv s (rw_node w s) p with
          | None => same
          | Some (n, out, g) =>
              (put (mk_rworld (rw_node w) (rupd (rw_out w) (negb s) rest)) s n out,
               match g with Some k => Some (Granted s k (r_value n)) | None => None end)
          end
      end
  end.

(** What is seen, in order. *)
Fixpoint rrun (w : rworld) (es : list revent) : rworld * list robs :=
  match es with
  | [] => (w, [])
  | e :: rest =>
      let '(w1, o) := rstep w e in let '(w2, os) := rrun w1 rest in
      (w2, match o with Some x => x :: os | None => os end)
  end.

(** new_internal (98-135) on both ends, with the agreed value *)
Definition rnode_init (v : N) : rnode := mk_rnode Free false 0 v BgLooping 0 [] [].
Definition rworld_init (v : N) : rworld := mk_rworld (λ _, rnode_init v) (λ _, []).
