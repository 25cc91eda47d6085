(** What a set of timers does: every registration has a deadline of its own;
    when it is due, its own callback is called; it is then rearmed, or gone.
    There are no tickets here. *)
From Coq Require Import ZifyBool ZifyNat ZifyN.
From stdpp Require Import prelude gmap.
From Verif Require Import SessionQueue_Model.
Local Open Scope N_scope.

Record timer := Timer { tm_due : N; tm_period : N; tm_once : bool }.

Record timers := Timers {
  ts_now : N; ts_all : gmap N timer; ts_next : N; ts_over : bool }.

Definition ts0 : timers := Timers 0 ∅ 0 false.

Definition once (k : registration) : bool :=
  match k with
  | KOneshot | KReserved (Oneshot _ _) => true
  | _ => false
  end.

Definition ts_step (s : timers) (e : q_event) : timers * q_out :=
  if ts_over s then (s, QNone) else
  match e with
  | QInsert k timeout =>
      (Timers (ts_now s)
         (<[ts_next s := Timer (ts_now s + timeout) timeout (once k)]>
            (ts_all s)) (ts_next s + 1) false, QNone)
  | QTick d => (Timers (ts_now s + d) (ts_all s) (ts_next s) false, QNone)
  | QExpire id answer =>
      match ts_all s !! id with
      | Some t =>
          if tm_due t <=? ts_now s then
            match answer with
            | EndSession =>
                (Timers (ts_now s) (ts_all s) (ts_next s) true, QFired id id)
            | Complete =>
                (Timers (ts_now s) (delete id (ts_all s)) (ts_next s) false,
                 QFired id id)
            | Incomplete | Adjust _ =>
                let d := match answer with Adjust d => d
                         | _ => tm_period t end in
                (Timers (ts_now s)
                   (if tm_once t then delete id (ts_all s)
                    else <[id := Timer (ts_now s + d) (tm_period t) false]>
                           (ts_all s)) (ts_next s) false, QFired id id)
            end
          else (s, QNone)
      | None => (s, QNone)
      end
  end.

Fixpoint ts_run (s : timers) (es : list q_event) : list q_out :=
  match es with
  | [] => []
  | e :: es => (ts_step s e).2 :: ts_run (ts_step s e).1 es
  end.

(** C46: the queue behaves like a set of timers. *)
Definition own_timers (ok : list q_event → Prop) : Prop :=
  ∀ es, ok es → q_run q0 es = ts_run ts0 es.

(** How the tickets are used, looking at the registrations only: reserved
    tickets have an index below ten and each is used once; the indices of the
    ordinary registrations for one account never go down (group numbers
    count up), and stay far below 2^64. *)
Definition tix_idx (t : ticket) : N :=
  match t with Oneshot i _ | Periodic i _ => i end.

Fixpoint orderly (seen : list ticket) (last : gmap N N) (es : list q_event)
  : Prop :=
  match es with
  | [] => True
  | QInsert (KReserved t) _ :: es =>
      t ∉ seen ∧ tix_idx t < 10 ∧ orderly (t :: seen) last es
  | QInsert (KOrdinary idx cid) _ :: es =>
      default 0 (last !! cid) ≤ idx ∧ idx < 2 ^ 62 ∧
      orderly seen (<[cid := idx]> last) es
  | _ :: es => orderly seen last es
  end.
