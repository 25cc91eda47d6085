(** Specification of the disconnect notification guard, over traces only. *)
From stdpp Require Import prelude.
From Verif Require Import Disconnect_Model.

Inductive subject := SC2s (t : ticket) | SP2p (t : ticket) (c : cid).
#[global] Instance subject_eq : EqDecision subject.
Proof. solve_decision. Defined.

(** [attempts x op]: op asks whether to notify for [x]; [clears x op]: op starts a new life of [x]. *)
Definition attempts (x : subject) (op : dop) : bool :=
  match op, x with
  | TryC2s t, SC2s t' => bool_decide (t = t')
  | TryP2p t c, SP2p t' c' => bool_decide (t = t') && bool_decide (c = c')
  | _, _ => false
  end.
Definition clears (x : subject) (op : dop) : bool :=
  match op, x with
  | ClearP2p t c, SP2p t' c' => bool_decide (t = t') && bool_decide (c = c')
  | ClearSessionC2s t, SC2s t' => bool_decide (t = t')
  | ClearSessionP2p t, SP2p t' _ => bool_decide (t = t')
  | _, _ => false
  end.

(** What the answers for [x] must be: granted exactly when there was no attempt for [x] since the
    last clear of [x] (or the beginning). *)
Fixpoint expected_answers (x : subject) (fresh : bool) (ops : list dop) : list bool :=
  match ops with
  | [] => []
  | op :: ops' =>
      if attempts x op then fresh :: expected_answers x false ops'
      else if clears x op then expected_answers x true ops'
      else expected_answers x fresh ops'
  end.

Definition answers (x : subject) (tr : list (dop * bool)) : list bool :=
  snd <$> filter (fun e => attempts x e.1 = true) tr.
