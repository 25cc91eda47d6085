(** Two nodes that are alive and follow the protocol. *)
From Coq Require Import ZArith.
From stdpp Require Import prelude.
From Verif Require Import KeepAlive_Model.
Local Open Scope Z_scope.

(** Keep-alives go to and fro: a node that gets one sends the next 15 minutes later.  A round at one node: a keep-alive takes
    [there] to get to it; the events until the next one; the answer takes [back]. *)
Record round := mk_round { there : Z; back : Z; meanwhile : list kev }.
Definition quarter : Z := 15 * 60 * 1000000000.
(** what happens at the node: [sent], when the keep-alive leaves, in the time of the sender; [ahead], how much the node's clock is
    ahead of the sender's *)
Fixpoint exchange (ahead sent : Z) (rs : list round) : list kev :=
  match rs with
  | [] => []
  | r :: rest =>
      KeepAlive (sent + there r + ahead) sent :: meanwhile r ++
      exchange ahead (sent + there r + quarter + back r + quarter) rest
  end.
(** no keep-alive takes longer than [delay], and what happens meanwhile happens before the next one has to be there *)
Fixpoint prompt (delay ahead sent : Z) (rs : list round) : Prop :=
  match rs with
  | [] => True
  | r :: rest =>
      0 ≤ there r ≤ delay ∧ 0 ≤ back r ≤ delay ∧
      (∀ e, e ∈ meanwhile r → (match e with KeepAlive _ _ => False | _ => True end) ∧
         sent + there r + ahead ≤ at_time e ≤ sent + there r + quarter + back r + quarter + delay + ahead) ∧
      prompt delay ahead (sent + there r + quarter + back r + quarter) rest
  end.
