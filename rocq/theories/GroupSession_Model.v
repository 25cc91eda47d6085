(** Model of one client's state for a group: the session layer on top of the
    group key agreement.

    Source: /repo/citadel_proto/src/proto/peer/group_cgka/mod.rs and
    group_cgka/hierarchy.rs.

    Simplifications: messages are passed as values, a payload that does not
    deserialize is not modelled (the functions return an error before touching the
    state, except that [process_commit] checks the epoch first); random secrets
    ([fresh_secret], l.51-61) are parameters; epochs are unbounded; the hierarchy
    overlay is in Hierarchy_Model.v. *)
From stdpp Require Import prelude gmap.
From Verif Require Import Bytes Tree_Model.
Local Open Scope N_scope.

Section Session.
  Context (P : prims).
  Notation commit := (commit (pub P) (ctext P)).

  (** mod.rs 28-48 (without the hierarchy fields) *)
  Record cgka := mk_cgka { c_group : option (group P); c_leaf_secret : secret P; c_owner : bool }.

  (** mod.rs 68-89 *)
  Definition new_owner (cid : N) (s : secret P) : cgka :=
    mk_cgka (Some (create P (key_package P cid s) s)) s true.

  (** mod.rs 91-114 *)
  Definition new_joiner (cid : N) (s : secret P) : cgka * leaf_node (pub P) :=
    (mk_cgka None s false, key_package P cid s).

  Definition with_group (c : cgka) (g : group P) : cgka := mk_cgka (Some g) (c_leaf_secret c) (c_owner c).

  (** mod.rs 118-146 *)
  Definition s_add_member (c : cgka) (kp : leaf_node (pub P)) (fresh : secret P) (rs : nat → nat → rnd P) (wr : rnd P)
    : cgka * res (welcome P * commit * N) :=
    if negb (c_owner c) then (c, Err)
    else match c_group c with
         | None => (c, Err)
         | Some g =>
             match add_member P g kp fresh rs wr with
             | (g', Ok (cm, w)) => (with_group c g', Ok (w, cm, g_epoch P g'))
             | (g', Err) => (with_group c g', Err)
             | (g', Panic) => (with_group c g', Panic)
             end
         end.

  (** mod.rs 148-163 *)
  Definition s_remove_member (c : cgka) (i : N) (fresh : secret P) (rs : nat → nat → rnd P) : cgka * res (commit * N) :=
    if negb (c_owner c) then (c, Err)
    else match c_group c with
         | None => (c, Err)
         | Some g =>
             match remove_member P g i fresh rs with
             | (g', Ok cm) => (with_group c g', Ok (cm, g_epoch P g'))
             | (g', Err) => (with_group c g', Err)
             | (g', Panic) => (with_group c g', Panic)
             end
         end.

  (** mod.rs 165-183 *)
  Definition s_remove_by_cid (c : cgka) (cid : N) (fresh : secret P) (rs : nat → nat → rnd P)
    : cgka * res (option (commit * N)) :=
    if negb (c_owner c) then (c, Err)
    else match c_group c with
         | None => (c, Err)
         | Some g =>
             match leaf_index_of_cid P (g_tree P g) cid with
             | None => (c, Ok None)
             | Some i =>
                 match s_remove_member c i fresh rs with
                 | (c', Ok r) => (c', Ok (Some r))
                 | (c', Err) => (c', Err)
                 | (c', Panic) => (c', Panic)
                 end
             end
         end.

  (** group_cgka/hierarchy.rs 78-131: the re-key at the end of [demote] *)
  Definition s_rekey (c : cgka) (fresh : secret P) (rs : nat → nat → rnd P) : cgka * res (commit * N) :=
    if negb (c_owner c) then (c, Err)
    else match c_group c with
         | None => (c, Err)
         | Some g =>
             match commit_update P g fresh rs with
             | (g', Ok cm) => (with_group c g', Ok (cm, g_epoch P g'))
             | (g', Err) => (with_group c g', Err)
             | (g', Panic) => (with_group c g', Panic)
             end
         end.

  (** mod.rs 185-196 *)
  Definition s_join (c : cgka) (w : welcome P) : cgka * res unit :=
    match join_from_welcome P w (c_leaf_secret c) with
    | Ok g => (with_group c g, Ok tt)
    | Err => (c, Err)
    | Panic => (c, Panic)
    end.

  (** mod.rs 198-215 *)
  Definition s_process_commit (c : cgka) (cm : commit) (epoch : N) : cgka * res unit :=
    match c_group c with
    | None => (c, Ok tt)
    | Some g =>
        if negb (epoch =? g_epoch P g + 1) then (c, Ok tt)
        else let '(g', r) := process_commit P g cm in (with_group c g', r)
    end.
End Session.
