(** What a key-value store shall do, from the history of operations alone. *)
From stdpp Require Import prelude gmap.
From Verif Require Import KvStore_Model.
Local Open Scope N_scope.

(** the value of a key after a history, latest operation first *)
Fixpoint last_value (h : list kop) (sc : scope) (k : N) : option N :=
  match h with
  | [] => None
  | KSet sc' k' v :: h => if decide (sc' = sc ∧ k' = k) then Some v else last_value h sc k
  | KRemove sc' k' :: h => if decide (sc' = sc ∧ k' = k) then None else last_value h sc k
  | KRemoveAll sc' :: h => if decide (sc' = sc) then None else last_value h sc k
  | _ :: h => last_value h sc k
  end.
(** the answer an operation shall give *)
Definition right_answer (h : list kop) (o : kop) (r : kres) : Prop :=
  match o, r with
  | KGet sc k, RVal v | KSet sc k _, RVal v | KRemove sc k, RVal v => v = last_value h sc k
  | KGetAll sc, RMap m | KRemoveAll sc, RMap m => ∀ k, m !! k = last_value h sc k
  | _, _ => False
  end.
Definition op_scope (o : kop) : scope :=
  match o with KGet sc _ | KSet sc _ _ | KRemove sc _ | KGetAll sc | KRemoveAll sc => sc end.
Definition session_of (sc : scope) : N := sc.1.1.
(** no key is set that has a value *)
Fixpoint no_overwrite (h : list kop) : Prop :=
  match h with
  | [] => True
  | KSet sc k _ :: h => last_value h sc k = None ∧ no_overwrite h
  | _ :: h => no_overwrite h
  end.
