(** What users expect of subscriptions (C100–C104). *)
From Coq Require Import ZifyBool ZifyNat ZifyN.
From stdpp Require Import prelude gmap.
From Verif Require Import Multiplex_Model.
Local Open Scope N_scope.

(** the messages of one subscription *)
Definition on (id : N) (l : list (N * N)) : list N := snd <$> filter (λ p, p.1 = id) l.
(** a run in which no opening is given up *)
Definition no_cancel (es : list event) : Prop := ∀ r, At r Cancel ∉ es.
(** what happens without the users *)
Definition internal (ev : event) : Prop :=
  match ev with
  | Deliver _ => True
  | At _ Setup | At _ Opened | At _ (BeginClose _) | At _ Close => True
  | _ => False
  end.
Definition quiet (w : world) : Prop := ∀ ev, internal ev → step w ev = None.
(** a subscription that one of the users has dropped has been dropped by the other one as well *)
Definition both_drop (es : list event) : Prop := ∀ r id, At r (Drop id) ∈ es → At (negb r) (Drop id) ∈ es.
(** how often a user has begun to open a subscription *)
Fixpoint opens (s : bool) (es : list event) : nat :=
  match es with
  | [] => 0
  | At r Open :: es' => (if Bool.eqb r s then 1 else 0) + opens s es'
  | _ :: es' => opens s es'
  end.
