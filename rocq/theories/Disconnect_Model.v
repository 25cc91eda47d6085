(** Model of citadel_proto/src/proto/disconnect_tracker.rs. Every method takes one mutex for its
    whole body (clear_session takes the two one after the other, so it is two steps here);
    a schedule of concurrent callers is a list of steps. *)
From stdpp Require Import prelude gmap.
Local Open Scope N_scope.

Definition ticket : Type := N.
Definition cid : Type := N.

(** disconnect_tracker.rs:48-53 *)
Record tracker := mk_tracker { t_c2s : gset ticket; t_p2p : gset (ticket * cid) }.
Definition tracker_init : tracker := mk_tracker ∅ ∅.

Inductive dop :=
| TryC2s (t : ticket) | TryP2p (t : ticket) (c : cid) | ClearP2p (t : ticket) (c : cid)
| ClearSessionC2s (t : ticket) | ClearSessionP2p (t : ticket).

(** HashSet::insert returns true iff the element was absent (lines 69-71, 82-87); remove (97-102);
    clear_session's two halves (112-118). *)
Definition dstep (s : tracker) (op : dop) : tracker * bool :=
  match op with
  | TryC2s t => (mk_tracker ({[t]} ∪ t_c2s s) (t_p2p s), bool_decide (t ∉ t_c2s s))
  | TryP2p t c => (mk_tracker (t_c2s s) ({[(t, c)]} ∪ t_p2p s), bool_decide ((t, c) ∉ t_p2p s))
  | ClearP2p t c => (mk_tracker (t_c2s s) (t_p2p s ∖ {[(t, c)]}), false)
  | ClearSessionC2s t => (mk_tracker (t_c2s s ∖ {[t]}) (t_p2p s), false)
  | ClearSessionP2p t => (mk_tracker (t_c2s s) (filter (fun x => x.1 <> t) (t_p2p s)), false)
  end.

(** The trace: each step with its answer. *)
Fixpoint dtrace (s : tracker) (ops : list dop) : list (dop * bool) :=
  match ops with
  | [] => []
  | op :: ops' => let '(s', b) := dstep s op in (op, b) :: dtrace s' ops'
  end.
