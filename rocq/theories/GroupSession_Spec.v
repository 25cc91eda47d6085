(** Specification for the session layer of a group (C23). *)
From stdpp Require Import prelude gmap.
From Verif Require Import Bytes Tree_Model GroupSession_Model.
Local Open Scope N_scope.

Section Spec.
  Context (P : prims).

  (** what the owner does *)
  Inductive oop :=
  | OwnAdd (cid : N) (joiner : secret P) (fresh : secret P) (rs : nat → nat → rnd P) (wr : rnd P)
  | OwnKick (cid : N) (fresh : secret P) (rs : nat → nat → rnd P)
  | OwnRekey (fresh : secret P) (rs : nat → nat → rnd P).

  (** what the owner sends out: a commit with its epoch for the members, and for
      an add the welcome, together with the leaf secret of the account it is for *)
  Record emitted := mk_emitted {
    em_commit : commit (pub P) (ctext P); em_epoch : N; em_welcome : option (secret P * welcome P) }.

  Definition owner_do (c : cgka P) (o : oop) : cgka P * option emitted :=
    match o with
    | OwnAdd cid joiner fresh rs wr =>
        match s_add_member P c (key_package P cid joiner) fresh rs wr with
        | (c', Ok (w, cm, e)) => (c', Some (mk_emitted cm e (Some (joiner, w))))
        | (c', _) => (c', None)
        end
    | OwnKick cid fresh rs =>
        match s_remove_by_cid P c cid fresh rs with
        | (c', Ok (Some (cm, e))) => (c', Some (mk_emitted cm e None))
        | (c', _) => (c', None)
        end
    | OwnRekey fresh rs =>
        match s_rekey P c fresh rs with
        | (c', Ok (cm, e)) => (c', Some (mk_emitted cm e None))
        | (c', _) => (c', None)
        end
    end.
  (** the owner's history: its state and everything it sent, in order *)
  Fixpoint owner_run (c : cgka P) (os : list oop) : cgka P * list emitted :=
    match os with
    | [] => (c, [])
    | o :: rest =>
        let '(c', e) := owner_do c o in
        let '(c'', es) := owner_run c' rest in
        (c'', match e with Some em => em :: es | None => es end)
    end.
  (** the owner does not kick itself *)
  Definition sensible (cid : N) (o : oop) : Prop :=
    match o with OwnKick c _ _ => c ≠ cid | _ => True end.

  (** what the network does to one member: it hands over the member's welcome, or
      the i-th commit, any number of times in any order *)
  Inductive dlv := DWelcome | DCommit (i : nat).
  Definition member_do (ems : list emitted) (w : welcome P) (c : cgka P) (d : dlv) : cgka P :=
    match d with
    | DWelcome => (s_join P c w).1
    | DCommit i =>
        match ems !! i with
        | Some em => (s_process_commit P c (em_commit em) (em_epoch em)).1
        | None => c
        end
    end.
  Definition member_run (ems : list emitted) (w : welcome P) (c : cgka P) (ds : list dlv) : cgka P :=
    foldl (member_do ems w) c ds.

  (** the welcome of the j-th commit, and the commits after it up to the k-th, each
      once and in order *)
  Definition in_order (j k : nat) : list dlv := DWelcome :: (DCommit <$> seq (S j) (k - S j)).

  (** commit number i removes the slot *)
  Definition removes (ems : list emitted) (i : nat) (slot : N) : Prop :=
    ∃ em, ems !! i = Some em ∧ PRemove slot ∈ cm_proposals (em_commit em).
End Spec.
