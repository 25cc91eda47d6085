(** What users expect of a file transfer (C86–C90), stated without looking into the ends. *)
From Coq Require Import ZifyBool ZifyNat ZifyN.
From stdpp Require Import prelude gmap.
From Verif Require Import Transfer_Model.
Local Open Scope N_scope.

(** every group has a wave, every wave a packet, and every wave of a group is sent once *)
Definition wf (c : cfg) : Prop :=
  ∀ rel ws, t_groups c !! rel = Some ws →
    ws ≠ [] ∧ (∀ p, p ∈ ws → 0 < p.1) ∧ t_order c rel ≡ₚ seq 0 (length ws).

(** a way to cut a group into waves *)
Definition slices (slice : bytes → group) : Prop :=
  ∀ d, d ≠ [] → slice d ≠ [] ∧ (∀ p, p ∈ slice d → 0 < p.1) ∧ concat (snd <$> slice d) = d.

(** a plain transfer of the file [d] in groups of [m] bytes; the first group has number [start] *)
Definition plain (start : N) (slice : bytes → group) (m : nat) (order : nat → list nat) (d : bytes) : cfg :=
  mk_cfg start (slice <$> split m d) order Some.

(** the states of a run *)
Definition reached (c : cfg) (x : st) : Prop := ∃ es, run c init es = Some x.

(** the receiver's user is told that the file is there, with this content *)
Definition received (x : st) (content : bytes) : Prop := RComplete content ∈ r_stat (st_r x).
(** the sender's user is told that the file has been transferred *)
Definition transferred (x : st) : Prop := SComplete ∈ s_stat (st_s x).

(** nothing is left to be done without a new decision of a user *)
Definition quiet (c : cfg) (x : st) : Prop :=
  ∀ e, e ∈ [EvLoop; EvToR; EvToS; EvWritten] → step c x e = None.

(** a number of steps within which every transfer of these groups has come to rest *)
Definition budget (c : cfg) : nat :=
  let messages := (1 + total c + sum_list (length <$> t_groups c))%nat in
  (2 * messages + 2 * total c + 5)%nat.

(** every wave of every group is sent once *)
Definition sends_all (order : nat → list nat) (groups : list group) : Prop :=
  ∀ rel ws, groups !! rel = Some ws → order rel ≡ₚ seq 0 (length ws).

(** what was to be done at the end of the transfer has been done: a file that is taken is deleted here *)
Definition closed (x : st) : Prop := s_hook (st_s x) = true.
Definition crashed (x : st) : Prop := s_panic (st_s x) = true.
