(** Model of the operations two nodes carry out together: [net_select_ok],
    [net_select], [net_try_join] and [net_join].

    Sources:
    - netbeam/src/sync/operations/net_select_ok.rs 92-335
    - netbeam/src/sync/operations/net_select.rs 57-79
    - netbeam/src/sync/operations/net_try_join.rs 91-250
    - netbeam/src/sync/operations/net_join.rs 53-83

    Simplifications.
    - The two directions of the subscription are queues that lose nothing and keep
      the order; errors of the connection are not modelled.
    - The evaluator and the completer of a node change the state and send under one
      mutex, so each of their rounds is one step.
    - What is dropped when the operation returns (its future, its subscription) does
      nothing any more; messages for a node that has returned are dropped.
    - The states that are never sent or entered (Pending as a message,
      NonPreferredFinished) are left out. *)
From Coq Require Import ZifyBool ZifyNat ZifyN.
From stdpp Require Import prelude gmap.
Local Open Scope N_scope.

(** the result of a node's future: [None] an error *)
Notation result := (option N).
(** net_select_ok.rs 92-103, net_try_join.rs 95-105: what the preferred node (the initiator) makes known *)
Inductive verdict := ResolvedLocalWon | ResolvedAdjacentWins | ResolvedBothFail | Resolved.
Inductive msg :=
| ObtainedValidResult
| Error
| Pinging (i : option bool)
| Verdict (v : verdict).
Global Instance verdict_eq_dec : EqDecision verdict.
Proof. solve_decision. Defined.
Global Instance msg_eq_dec : EqDecision msg.
Proof. solve_decision. Defined.

(** net_select_ok.rs 105-114 *)
Definition implies_success (m : msg) : bool := match m with ObtainedValidResult | Pinging (Some true) => true | _ => false end.
Definition implies_failure (m : msg) : bool := match m with Error | Pinging (Some false) => true | _ => false end.
(** [ret_value.as_ref().map(|r| r.is_ok())] *)
Definition info (ret : option result) : option bool := (λ r, match r with Some _ => true | None => false end) <$> ret.

(** ** Two nodes; [A]: what the operation returns *)
Record node (A : Type) := mk_node { e_ret : option result; e_out : option A }.
Arguments mk_node {A}. Arguments e_ret {A}. Arguments e_out {A}.
Record world (A : Type) := mk_world {
  w_p : node A;          (* the preferred node: the initiator *)
  w_v : option verdict;  (* local_state of the preferred node, once resolved *)
  w_n : node A;
  to_p : list msg;
  to_n : list msg }.
Arguments mk_world {A}. Arguments w_p {A}. Arguments w_v {A}. Arguments w_n {A}. Arguments to_p {A}. Arguments to_n {A}.

Inductive event :=
| Finish (p : bool) (r : result)   (* the future of a node is ready; [p]: of the preferred one *)
| ToP                              (* the next message reaches the preferred node *)
| ToN.

Section Op.
  Context {A : Type}.
  (** [dec]: whether a message resolves the operation, for a preferred node with this result;
      [fin]: what the other node returns on a verdict, if it ends there *)
  Context (dec : option result → msg → option (verdict * A)) (fin : option result → verdict → option A).

  (** the completer: net_select_ok.rs 284-307, net_try_join.rs 212-235 *)
  Definition finish (e : node A) (r : result) : option (node A * msg) :=
    match e_out e, e_ret e with
    | None, None => Some (mk_node (Some r) None, match r with Some _ => ObtainedValidResult | None => Error end)
    | _, _ => None
    end.

  (** the evaluators: net_select_ok.rs 163-281, net_try_join.rs 151-209 *)
  Definition step (x : world A) (e : event) : option (world A) :=
    match e with
    | Finish true r =>
        match finish (w_p x) r with
        | Some (p', m) => Some (mk_world p' (w_v x) (w_n x) (to_p x) (to_n x ++ [m]))
        | None => None
        end
    | Finish false r =>
        match finish (w_n x) r with
        | Some (n', m) => Some (mk_world (w_p x) (w_v x) n' (to_p x ++ [m]) (to_n x))
        | None => None
        end
    | ToP =>
        match to_p x with
        | [] => None
        | m :: rest =>
            match e_out (w_p x) with
            | Some _ => Some (mk_world (w_p x) (w_v x) (w_n x) rest (to_n x))
            | None =>
                match dec (e_ret (w_p x)) m with
                | Some (v, a) => Some (mk_world (mk_node (e_ret (w_p x)) (Some a)) (Some v) (w_n x) rest (to_n x ++ [Verdict v]))
                | None => Some (mk_world (w_p x) (w_v x) (w_n x) rest (to_n x ++ [Pinging (info (e_ret (w_p x)))]))
                end
            end
        end
    | ToN =>
        match to_n x with
        | [] => None
        | m :: rest =>
            match e_out (w_n x) with
            | Some _ => Some (mk_world (w_p x) (w_v x) (w_n x) (to_p x) rest)
            | None =>
                match match m with Verdict v => fin (e_ret (w_n x)) v | _ => None end with
                | Some a => Some (mk_world (w_p x) (w_v x) (mk_node (e_ret (w_n x)) (Some a)) (to_p x) rest)
                | None => Some (mk_world (w_p x) (w_v x) (w_n x) (to_p x ++ [Pinging (info (e_ret (w_n x)))]) rest)
                end
            end
        end
    end.
  Fixpoint run (x : world A) (es : list event) : option (world A) :=
    match es with [] => Some x | e :: es' => match step x e with Some x' => run x' es' | None => None end end.
  Definition init : world A := mk_world (mk_node None None) None (mk_node None None) [] [].
End Op.

(** ** net_select_ok *)
(** NetSelectOkResult: the value of the winner, and [other_side_succeeded]; net_select_ok.rs 116-122, 322-335 *)
Record select_result := mk_select { sr_result : option N; sr_other : bool }.
Definition wrap_return (ret : option result) (did_win other : bool) : select_result :=
  mk_select (if did_win then mjoin ret else None) other.
(** 187-247; [return_sequence]: 166-176 *)
Definition select_dec (ret : option result) (m : msg) : option (verdict * select_result) :=
  match ret with
  | Some (Some _) => Some (ResolvedLocalWon, wrap_return ret true false)
  | Some None =>
      if implies_success m then Some (ResolvedAdjacentWins, wrap_return ret false true)
      else if implies_failure m then Some (ResolvedBothFail, wrap_return ret false false)
      else None
  | None =>
      if implies_success m then Some (ResolvedAdjacentWins, wrap_return ret false true) else None
  end.
(** 247-279 *)
Definition select_fin (ret : option result) (v : verdict) : option select_result :=
  match v with
  | ResolvedAdjacentWins => Some (wrap_return ret true false)
  | ResolvedLocalWon => Some (wrap_return None false true)
  | ResolvedBothFail => Some (wrap_return None false false)
  | Resolved => None
  end.
(** net_select_ok.rs 125-127 *)
Definition global_failure (r : select_result) : bool := bool_decide (sr_result r = None) && negb (sr_other r).
(** net_select.rs 61-79: the futures cannot fail *)
Definition net_select_result (r : select_result) : option N := sr_result r.

(** ** net_try_join *)
(** NetTryJoinResult: the value, if the future was ready; net_try_join.rs 154-185 *)
Definition try_dec (ret : option result) (m : msg) : option (verdict * option result) :=
  if implies_failure m || bool_decide (ret = Some None) then Some (ResolvedBothFail, ret)
  else if implies_success m && match ret with Some (Some _) => true | _ => false end then Some (Resolved, ret)
  else None.
(** 186-207 *)
Definition try_fin (ret : option result) (v : verdict) : option (option result) :=
  match v with Resolved | ResolvedBothFail => Some ret | _ => None end.

Notation srun := (run select_dec select_fin).
Notation jrun := (run try_dec try_fin).
