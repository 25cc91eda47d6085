(** Vocabulary: the history of installed ratchets as an outside observer records it. *)
From stdpp Require Import prelude.
From Verif Require Import Toolset_Model.
Local Open Scope N_scope.

Section spec.
Context {K : Type}.

(** Ratchets whose installation was confirmed, oldest first. *)
Fixpoint installed (init : list (ratchet K)) (h : list (op K * out)) : list (ratchet K) :=
  match h with
  | [] => init
  | (Update r, OUpdate (Some _)) :: h' => installed (init ++ [r]) h'
  | _ :: h' => installed init h'
  end.

(** Number of confirmed truncations. *)
Fixpoint truncations (h : list (op K * out)) : nat :=
  match h with
  | [] => 0%nat
  | (Truncate _, OTruncate DeregOk) :: h' => S (truncations h')
  | _ :: h' => truncations h'
  end.

(** The [i]-th installed ratchet has version number [v0 + i] modulo 2^32. *)
Definition version_of (v0 : N) (i : nat) : N := (v0 + N.of_nat i) mod 2 ^ 32.
End spec.
