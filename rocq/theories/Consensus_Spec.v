(** What users expect of operations carried out by two nodes together (C95–C99). *)
From Coq Require Import ZifyBool ZifyNat ZifyN.
From stdpp Require Import prelude gmap.
From Verif Require Import Consensus_Model.
Local Open Scope N_scope.

(** the result of the future of a node in a run *)
Fixpoint outcome (p : bool) (es : list event) : option result :=
  match es with
  | [] => None
  | Finish q r :: es' => if Bool.eqb p q then Some r else outcome p es'
  | _ :: es' => outcome p es'
  end.
(** its place in the run *)
Fixpoint place (p : bool) (es : list event) : option nat :=
  match es with
  | [] => None
  | Finish q _ :: es' => if Bool.eqb p q then Some O else S <$> place p es'
  | _ :: es' => S <$> place p es'
  end.

Definition succeeded (o : option result) : Prop := ∃ v, o = Some (Some v).
Definition errored (o : option result) : Prop := o = Some None.
Definition finished (o : option result) : Prop := ∃ r, o = Some r.

(** what the two nodes return; the preferred one first *)
Definition returns {A} (x : world A) (a b : A) : Prop := e_out (w_p x) = Some a ∧ e_out (w_n x) = Some b.
Definition both_returned {A} (x : world A) : Prop := ∃ a b, returns x a b.

Definition delivery (e : event) : Prop := match e with Finish _ _ => False | _ => True end.
