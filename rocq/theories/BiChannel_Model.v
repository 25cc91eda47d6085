(** The two-way channel of netbeam: netbeam/src/sync/channel/bi_channel.rs 66-282.

    An end has a sending and a receiving half, which may be used apart ([split], 212-214); dropping the sending half does nothing.
    When the receiving half is dropped, a task is started that tells the other end (250-281).  The connection between the ends keeps the
    order and loses nothing (C100).  A call of
    send_item is one step: what it checks still holds when it sends.  Left out: errors of the connection, values that cannot be deserialised, and
    dropping outside of a runtime, where no task is started. *)
From stdpp Require Import prelude.
Local Open Scope N_scope.

(** ChannelPacket, bi_channel.rs 70-78 *)
Inductive bpkt := Val (x : N) | Halt | HaltVerified.

(** the task of bi_channel.rs 256-279: not there, started, has sent Halt, waits for HaltVerified, at its end *)
Inductive btask := TNone | TStarted | THalted | TWaits | TDone.
Global Instance btask_eq_dec : EqDecision btask.
Proof. solve_decision. Defined.

(** [be_rx]: the receiving half is there; [be_halt]: the flag recv_halt, which both halves share (182-207); [be_sent]: for which
    values send_item returned Ok; [be_got]: what recv or the stream returned *)
Record bend := mk_bend { be_rx : bool; be_halt : bool; be_task : btask; be_sent : list N; be_got : list N }.

(** The two ends of bi_channel.rs 178-209 are [true] and [false]; [bw_wire b]: what is under way to [b], oldest first *)
Record bworld := mk_bworld { bw_end : bool → bend; bw_wire : bool → list bpkt }.
Definition bworld_init : bworld := mk_bworld (λ _, mk_bend true false TNone [] []) (λ _, []).

Definition set_at {A} (f : bool → A) (b : bool) (v : A) : bool → A := λ x, if Bool.eqb x b then v else f x.
Definition set_end (w : bworld) (b : bool) (e : bend) : bworld := mk_bworld (set_at (bw_end w) b e) (bw_wire w).
Definition set_wire (w : bworld) (b : bool) (l : list bpkt) : bworld := mk_bworld (bw_end w) (set_at (bw_wire w) b l).
Definition put (w : bworld) (from : bool) (p : bpkt) : bworld := set_wire w (negb from) (bw_wire w (negb from) ++ [p]).

Inductive bevent :=
| Send (b : bool) (x : N)
| Recv (b : bool)
| DropRecv (b : bool)
| RunTask (b : bool).        (* the task of [b] does its next step *)

(** send_item, bi_channel.rs 114-125 *)
Definition send_ok (w : bworld) (b : bool) : bool := negb (be_halt (bw_end w b)).
Definition do_send (w : bworld) (b : bool) (x : N) : bworld :=
  let e := bw_end w b in
  if send_ok w b then put (set_end w b (mk_bend (be_rx e) (be_halt e) (be_task e) (be_sent e ++ [x]) (be_got e))) b (Val x) else w.

(** recv and poll_next, bi_channel.rs 135-153, 185-194, 228-247: reads on unless halted; anything but a value halts *)
Definition do_recv (w : bworld) (b : bool) : bworld :=
  let e := bw_end w b in
  if be_rx e && negb (be_halt e) then
    match bw_wire w b with
    | [] => w
    | Val x :: rest => set_wire (set_end w b (mk_bend (be_rx e) (be_halt e) (be_task e) (be_sent e) (be_got e ++ [x]))) b rest
    | _ :: rest => set_wire (set_end w b (mk_bend (be_rx e) true (be_task e) (be_sent e) (be_got e))) b rest
    end
  else w.

(** the receiving half is dropped, bi_channel.rs 251-256 *)
Definition do_drop (w : bworld) (b : bool) : bworld :=
  let e := bw_end w b in
  if be_rx e then set_end w b (mk_bend false (be_halt e) TStarted (be_sent e) (be_got e)) else w.

(** the task, bi_channel.rs 257-278 *)
Definition do_task (w : bworld) (b : bool) : bworld :=
  let e := bw_end w b in
  let to t h := mk_bend (be_rx e) h t (be_sent e) (be_got e) in
  match be_task e with
  | TNone | TDone => w
  | TStarted => if be_halt e then put (set_end w b (to TDone true)) b HaltVerified else put (set_end w b (to THalted false)) b Halt
  | THalted => set_end w b (to TWaits true)
  | TWaits =>
      match bw_wire w b with
      | [] => w
      | HaltVerified :: rest => set_wire (set_end w b (to TDone (be_halt e))) b rest
      | _ :: rest => set_wire w b rest
      end
  end.

Definition bstep (w : bworld) (e : bevent) : bworld :=
  match e with
  | Send b x => do_send w b x
  | Recv b => do_recv w b
  | DropRecv b => do_drop w b
  | RunTask b => do_task w b
  end.
Definition brun (w : bworld) (es : list bevent) : bworld := foldl bstep w es.
