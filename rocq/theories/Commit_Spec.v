(** Specification for commits of any origin (C57). *)
From stdpp Require Import prelude gmap.
From Verif Require Import Bytes Tree_Model GroupSession_Model.
Local Open Scope N_scope.

(** The number of slots after the proposals; [None]: a proposal removes a slot that is not there. *)
Fixpoint slots_after {A} (n : N) (ps : list (proposal A)) : option N :=
  match ps with
  | [] => Some n
  | PAdd _ i :: rest => slots_after (N.max n (i + 1)) rest
  | PRemove i :: rest => if i <? n then slots_after n rest else None
  end.
(** The commit names only slots of a tree of [n] slots. *)
Definition within {A B} (n : N) (c : commit A B) : Prop :=
  ∃ m, slots_after n (cm_proposals c) = Some m ∧ up_leaf (cm_path c) < m.

Section Spec.
  Context (P : prims).
  (** A node list of the length of a tree with [n] slots. *)
  Definition sized (n : N) (t : list (node (pub P))) : Prop := 0 < n ∧ N.of_nat (length t) = 2 * n - 1.
  Definition well_sized (c : cgka P) : Prop := ∀ g, c_group P c = Some g → ∃ n, sized n (g_tree P g).
  Definition names_slots (c : cgka P) (cm : commit (pub P) (ctext P)) : Prop :=
    ∀ g, c_group P c = Some g → within (num_leaves P (g_tree P g)) cm.
  (** Commits as they come in, with their epochs; the answers in order. *)
  Fixpoint process_all (c : cgka P) (l : list (commit (pub P) (ctext P) * N)) : cgka P * list (res unit) :=
    match l with
    | [] => (c, [])
    | (cm, e) :: rest =>
        let '(c1, r) := s_process_commit P c cm e in
        let '(c2, rs) := process_all c1 rest in (c2, r :: rs)
    end.
  Fixpoint all_name_slots (c : cgka P) (l : list (commit (pub P) (ctext P) * N)) : Prop :=
    match l with
    | [] => True
    | (cm, e) :: rest => names_slots c cm ∧ all_name_slots (s_process_commit P c cm e).1 rest
    end.
End Spec.
