(** What C31 says of the tracked requests, in terms of the calls made and their outcomes. *)
From Coq Require Import ZifyBool ZifyNat ZifyN.
From stdpp Require Import prelude gmap.
From Verif Require Import Postings_Model.
Local Open Scope N_scope.

(** how often a request was made with this ticket and signal, and how often one was consumed *)
Definition made {S} `{EqDecision S} (c t : N) (x : S) (e : levent S) : nat :=
  match e with LInsert c' t' _ x' => if bool_decide (c' = c ∧ t' = t ∧ x' = x) then 1 else 0 | _ => 0 end.
Definition times_made {S} `{EqDecision S} (c t : N) (x : S) (es : list (levent S)) : nat := sum_list (made c t x <$> es).
Definition is_consumed {S} `{EqDecision S} (c t : N) (x : S) (o : lout S) : bool :=
  match o with Answered c' t' x' | TimedOut c' t' x' | Purged c' t' x' => bool_decide (c' = c ∧ t' = t ∧ x' = x) end.
Definition times_consumed {S} `{EqDecision S} (c t : N) (x : S) (os : list (lout S)) : nat :=
  length (filter (λ o, is_consumed c t x o = true) os).

(** the request last made with this ticket: its deadline and signal; [now] is the time at the start *)
Fixpoint latest {S} (c t : N) (now : N) (es : list (levent S)) (acc : option (N * S)) : option (N * S) :=
  match es with
  | [] => acc
  | LTick d :: rest => latest c t (now + d) rest acc
  | LInsert c' t' d x :: rest => latest c t now rest (if bool_decide (c' = c ∧ t' = t) then Some (now + d, x) else acc)
  | _ :: rest => latest c t now rest acc
  end.
Fixpoint clock {S} (es : list (levent S)) : N :=
  match es with [] => 0 | LTick d :: rest => d + clock rest | _ :: rest => clock rest end.

(** a ticket is used again only after the request made with it before has been consumed *)
Definition concerns {S} (o : lout S) : N * N :=
  match o with Answered c t _ | TimedOut c t _ | Purged c t _ => (c, t) end.
Fixpoint careful {S} (l : layer S) (op : gset (N * N)) (es : list (levent S)) : Prop :=
  match es with
  | [] => True
  | e :: rest =>
      match e with LInsert c t _ _ => (c, t) ∉ op | _ => True end ∧
      match lstep l e with
      | None => True
      | Some (l', os) =>
          careful l' ((match e with LInsert c t _ _ => {[(c, t)]} ∪ op | _ => op end) ∖ list_to_set (concerns <$> os)) rest
      end
  end.
