(** Vocabulary for the anti-replay properties: what an observer of the API sees. *)
From stdpp Require Import prelude gmap.
From Verif Require Import Replay_Model.
Local Open Scope N_scope.

(** A call and its answer, oldest first. *)
Definition event : Type := op * out.

(** [accepted_since_reset h] : IDs answered "accept" after the last reset in [h]. *)
Fixpoint accepted_acc (acc : list N) (h : list event) : list N :=
  match h with
  | [] => acc
  | (Reset, _) :: h' => accepted_acc [] h'
  | (Recv pid, OVerdict true) :: h' => accepted_acc (acc ++ [pid]) h'
  | _ :: h' => accepted_acc acc h'
  end.
Definition accepted_since_reset (h : list event) : list N := accepted_acc [] h.

(** Same for the IDs handed out to the sending side. *)
Fixpoint issued_acc (acc : list N) (h : list event) : list N :=
  match h with
  | [] => acc
  | (Reset, _) :: h' => issued_acc [] h'
  | (NextPid, OPid p) :: h' => issued_acc (acc ++ [p]) h'
  | _ :: h' => issued_acc acc h'
  end.
Definition issued_since_reset (h : list event) : list N := issued_acc [] h.

(** All IDs presented are 64-bit numbers. *)
Definition u64_ops (ops : list op) : Prop :=
  Forall (fun o => match o with Recv pid => pid < 2 ^ 64 | _ => True end) ops.

(** The window rule of the documentation: with [acc] the IDs accepted so far, [pid] is
    fresh iff it was never accepted and is not more than 1024 below one past the largest
    accepted ID, where "one past" is capped at [2^64 - 1] as 64-bit arithmetic demands. *)
Definition fresh_in_window (acc : list N) (pid : N) : Prop :=
  pid ∉ acc /\ forall q, q ∈ acc -> N.min (q + 1) (2 ^ 64 - 1) <= pid + 1024.
