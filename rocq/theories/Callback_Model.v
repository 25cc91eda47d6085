(** Requests and answers within a program: netbeam/src/sync/tracked_callback_channel.rs 52-198.

    Callers share a queue of bounded length to one receiver; the id of a request finds the caller when it is answered.  Left out:
    that the ids are 64 bits wide (2 ^ 64 calls). *)
From stdpp Require Import prelude gmap.
Local Open Scope N_scope.

(** a call of send (tracked_callback_channel.rs 128-153): waits for room in the queue, waits for its answer, has returned (the
    answer or an error), or its future was dropped *)
Inductive cstate := CSends | CWaits | CReturned (r : option N) | CDropped.
Global Instance cstate_eq_dec : EqDecision cstate.
Proof. solve_decision. Defined.

(** [cb_next], [cb_map], [cb_queue]: tracked_callback_channel.rs 74-91, where the oneshot sender in the map is known by the id;
    [cb_room]: the length of the queue; [cb_rx]: the receiver is there; [cb_taken]: what it has taken, oldest first;
    [cb_calls]: the calls, by id, with their payload *)
Record cworld := mk_cworld { cb_next : N; cb_map : gset N; cb_queue : list (N * N); cb_room : nat; cb_rx : bool;
  cb_taken : list (N * N); cb_calls : gmap N (N * cstate) }.
Definition cworld_init (room : nat) : cworld := mk_cworld 1 ∅ [] room true [] ∅.    (* new, 111-125 *)

(** NO_RESPONSE, 71 *)
Definition no_response : N := 0.

Inductive cevent :=
| Call (x : N)                   (* send is called *)
| Push (i : N)                   (* the call goes on, its future is polled *)
| DropCall (i : N)               (* its future is dropped, e.g. by a timeout *)
| Notify (x : N)                 (* send_no_callback gets a place in the queue *)
| Take                           (* the receiver is polled *)
| Reply (k : nat) (r : N)        (* try_reply to the [k]-th request taken *)
| DropRx.

(** tracked_callback_channel.rs 129-134 *)
Definition do_call (w : cworld) (x : N) : cworld :=
  mk_cworld (cb_next w + 1) ({[cb_next w]} ∪ cb_map w) (cb_queue w) (cb_room w) (cb_rx w) (cb_taken w)
    (<[cb_next w := (x, CSends)]> (cb_calls w)).
(** tracked_callback_channel.rs 136-150: fails when the receiver is gone, waits when the queue is full *)
Definition do_push (w : cworld) (i : N) : cworld :=
  match cb_calls w !! i with
  | Some (x, CSends) =>
      if cb_rx w then
        if bool_decide (length (cb_queue w) < cb_room w)%nat then
          mk_cworld (cb_next w) (cb_map w) (cb_queue w ++ [(i, x)]) (cb_room w) (cb_rx w) (cb_taken w) (<[i := (x, CWaits)]> (cb_calls w))
        else w
      else mk_cworld (cb_next w) (cb_map w ∖ {[i]}) (cb_queue w) (cb_room w) (cb_rx w) (cb_taken w) (<[i := (x, CReturned None)]> (cb_calls w))
  | _ => w
  end.
(** nothing runs when a future of send is dropped *)
Definition do_drop_call (w : cworld) (i : N) : cworld :=
  match cb_calls w !! i with
  | Some (x, CSends) | Some (x, CWaits) =>
      mk_cworld (cb_next w) (cb_map w) (cb_queue w) (cb_room w) (cb_rx w) (cb_taken w) (<[i := (x, CDropped)]> (cb_calls w))
  | _ => w
  end.
(** tracked_callback_channel.rs 156-166 *)
Definition do_notify (w : cworld) (x : N) : cworld :=
  if cb_rx w && bool_decide (length (cb_queue w) < cb_room w)%nat then
    mk_cworld (cb_next w) (cb_map w) (cb_queue w ++ [(no_response, x)]) (cb_room w) (cb_rx w) (cb_taken w) (cb_calls w)
  else w.
(** tracked_callback_channel.rs 195-197 *)
Definition do_take (w : cworld) : cworld :=
  match cb_queue w with
  | p :: rest => if cb_rx w then mk_cworld (cb_next w) (cb_map w) rest (cb_room w) (cb_rx w) (cb_taken w ++ [p]) (cb_calls w) else w
  | [] => w
  end.
(** try_reply, tracked_callback_channel.rs 169-182: whether it returns Ok *)
Definition reply_ok (w : cworld) (k : nat) : bool :=
  match cb_taken w !! k with
  | Some (i, _) => bool_decide (i ∈ cb_map w) && match cb_calls w !! i with Some (_, CWaits) => true | _ => false end
  | None => false
  end.
Definition do_reply (w : cworld) (k : nat) (r : N) : cworld :=
  match cb_taken w !! k with
  | Some (i, _) =>
      if bool_decide (i ∈ cb_map w) then
        mk_cworld (cb_next w) (cb_map w ∖ {[i]}) (cb_queue w) (cb_room w) (cb_rx w) (cb_taken w)
          (match cb_calls w !! i with Some (x, CWaits) => <[i := (x, CReturned (Some r))]> (cb_calls w) | _ => cb_calls w end)
      else w
  | None => w
  end.
(** the queue goes with the receiver; the oneshot senders are in the map and stay *)
Definition do_drop_rx (w : cworld) : cworld :=
  mk_cworld (cb_next w) (cb_map w) [] (cb_room w) false (cb_taken w) (cb_calls w).

Definition cstep (w : cworld) (e : cevent) : cworld :=
  match e with
  | Call x => do_call w x
  | Push i => do_push w i
  | DropCall i => do_drop_call w i
  | Notify x => do_notify w x
  | Take => do_take w
  | Reply k r => do_reply w k r
  | DropRx => do_drop_rx w
  end.
Definition crun (w : cworld) (es : list cevent) : cworld := foldl cstep w es.
