(** What users expect of names, paths and the virtual filesystem (C91–C94). *)
From Coq Require Import ZifyBool ZifyNat ZifyN.
From stdpp Require Import prelude gmap.
From Verif Require Import Vfs_Model.
Local Open Scope N_scope.

(** the directories of a node: they end in "/", and have no backslash and no ".." in them *)
Definition good_dir (d : str) : Prop :=
  last d = Some slash ∧ backslash ∉ d ∧ [dot; dot] ∉ segments d.

(** [p] is the directory [d] or something in it *)
Definition within (d p : list str) : Prop := ∃ rest, p = d ++ rest.
(** the directory of an account *)
Definition home (dir : str) (cid : N) : list str := resolve dir ++ [cid_str cid].

(** whose files a request is about *)
Definition owner (r : req) : N := match r with Put c _ _ _ => c | Pull c _ _ => c | Del c _ => c end.
Definition vpath_of (r : req) : str := match r with Put _ v _ _ => v | Pull _ v _ => v | Del _ v => v end.
(** the accounts ask for their own files *)
Definition honest (rs : list (N * req)) : Prop := ∀ who r, (who, r) ∈ rs → owner r = who.

(** ** The filesystem of one account, as users see it: a map from names to files *)
Notation shelf := (gmap (list str) (N * str)).
Definition accepted (vpath : str) : bool := valid_virtual (format_path vpath).
Definition name_of (vpath : str) : list str := segments (format_path vpath).
Definition shelve (m : shelf) (r : req) : shelf * ans :=
  if negb (accepted (vpath_of r)) then (m, Error) else
  let n := name_of (vpath_of r) in
  match r with
  | Put _ _ level data => (<[n := (level, data)]> m, Done)
  | Pull _ _ take_it =>
      match m !! n with
      | Some (level, data) => (if take_it then delete n m else m, Content level data)
      | None => (m, Error)
      end
  | Del _ _ => match m !! n with Some _ => (delete n m, Done) | None => (m, Error) end
  end.
Fixpoint shelve_all (m : shelf) (rs : list req) : shelf * list ans :=
  match rs with
  | [] => (m, [])
  | r :: rs' => let '(m', a) := shelve m r in let '(m'', l) := shelve_all m' rs' in (m'', a :: l)
  end.
(** the part of a list that is about one account *)
Definition mine {A} (who : N) (l : list (N * A)) : list A := snd <$> filter (λ p, p.1 = who) l.

(** names that do not look like those of metadata, and of which none is a directory of another *)
Definition plain_name (n : list str) : Prop := n ≠ [] ∧ ∀ p, p ∈ n → ∀ q, p ≠ q ++ ext.
Definition apart (W : list str → Prop) : Prop := ∀ n n' rest, W n → W n' → n' = n ++ rest → rest = [].
(** a path that does not end in "/." *)
Definition names_file (vpath : str) : Prop := last (parts_of (format_path vpath)) ≠ Some [dot].
