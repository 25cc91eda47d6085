(** What an observer of the two ends sees. *)
From stdpp Require Import prelude.
From Verif Require Import Protect_Model.
Local Open Scope N_scope.

(** (header, payload) of every successful send, oldest first. *)
Fixpoint sent (h : list (op * out)) : list (list N * list N) :=
  match h with
  | [] => []
  | (Send _ hd p, Some _) :: h' => (hd, p) :: sent h'
  | _ :: h' => sent h'
  end.

(** (header, payload) of every accepted arrival, oldest first. *)
Fixpoint delivered (h : list (op * out)) : list (list N * list N) :=
  match h with
  | [] => []
  | (Arrive _ hd _, Some p) :: h' => (hd, p) :: delivered h'
  | _ :: h' => delivered h'
  end.

(** Sends and arrivals only (one key epoch). *)
Definition one_epoch (ops : list op) : Prop :=
  Forall (fun o => match o with Send _ _ _ | Arrive _ _ _ => True | _ => False end) ops.
