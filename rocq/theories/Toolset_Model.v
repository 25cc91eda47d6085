(** Model of citadel_crypt/src/toolset.rs. *)
From stdpp Require Import prelude.
Local Open Scope N_scope.

Section toolset.
(** What a ratchet is made of beyond its identity is irrelevant here. *)
Context {K : Type}.

(** The two observations of the [Ratchet] trait used by the toolset: [get_cid], [version]
    (ratchets/mod.rs); [r_key] stands for the key material. *)
Record ratchet := mk_ratchet { r_cid : N; r_version : N; r_key : K }.

(** toolset.rs:38-41 [MAX_RATCHETS_IN_MEMORY]: 6 in debug, 32 in release builds. *)
Context (MAX : nat).

(** toolset.rs:49-65 [Toolset]; [ts_map] is the VecDeque, head = front. *)
Record toolset := mk_toolset {
  ts_cid : N;
  ts_most_recent : N;
  ts_oldest : N;
  ts_map : list ratchet;
  ts_static_aux : ratchet;
}.

(** u32 wrapping arithmetic *)
Definition wsub1 (x : N) : N := (x + (2 ^ 32 - 1)) mod 2 ^ 32.
Definition wadd1 (x : N) : N := (x + 1) mod 2 ^ 32.
Definition wsub (x y : N) : N := (x + 2 ^ 32 - y) mod 2 ^ 32.

(** toolset.rs:80-92 [ToolsetUpdateStatus] *)
Inductive update_status :=
| Committed (new_version : N)
| CommittedNeedsSynchronization (new_version oldest_version : N).

(** toolset.rs:97-107 [new] *)
Definition ts_new (cid : N) (r : ratchet) : toolset := mk_toolset cid 0 0 [r] r.

(** toolset.rs:272-286 [From<(R, R)>] *)
Definition ts_from (static_aux r : ratchet) : toolset :=
  mk_toolset (r_cid static_aux) (r_version r) (r_version r) [r] static_aux.

(** toolset.rs:159-172 [append_ratchet] *)
Definition append_ratchet (t : toolset) (r : ratchet) : update_status * toolset :=
  let t' := mk_toolset (ts_cid t) (ts_most_recent t) (ts_oldest t) (r :: ts_map t) (ts_static_aux t) in
  if bool_decide (MAX <= length (ts_map t'))%nat
  then (CommittedNeedsSynchronization (r_version r) (ts_oldest t'), t')
  else (Committed (r_version r), t').

(** toolset.rs:127-153 [update_from] *)
Definition update_from (t : toolset) (r : ratchet) : option update_status * toolset :=
  if negb (r_cid r =? ts_cid t) then (None, t)
  else if negb (ts_most_recent t =? wsub1 (r_version r)) then (None, t)
  else
    let '(status, t1) := append_ratchet t r in
    let cur := match status with
               | Committed v => v
               | CommittedNeedsSynchronization v _ => v end in
    (Some status, mk_toolset (ts_cid t1) cur (ts_oldest t1) (ts_map t1) (ts_static_aux t1)).

Inductive dereg_result := DeregOk | DeregNotMaxed | DeregVersionMismatch | DeregOutOfBounds.

(** VecDeque::pop_back *)
Definition pop_back {A} (l : list A) : option (list A) :=
  match l with [] => None | _ => Some (removelast l) end.

(** toolset.rs:180-202 [deregister_oldest_ratchet] *)
Definition deregister_oldest_ratchet (t : toolset) (version : N) : dereg_result * toolset :=
  if bool_decide (length (ts_map t) < MAX)%nat then (DeregNotMaxed, t)
  else if negb (ts_oldest t =? version) then (DeregVersionMismatch, t)
  else match pop_back (ts_map t) with
       | None => (DeregOutOfBounds, t)
       | Some m => (DeregOk, mk_toolset (ts_cid t) (ts_most_recent t) (wadd1 (ts_oldest t)) m (ts_static_aux t))
       end.

(** toolset.rs:211-218 *)
Definition get_most_recent_ratchet (t : toolset) : option ratchet := head (ts_map t).
Definition get_oldest_ratchet (t : toolset) : option ratchet := last (ts_map t).

(** VecDeque::get *)
Fixpoint get_nth {A} (l : list A) (i : N) : option A :=
  match l with
  | [] => None
  | x :: l' => if i =? 0 then Some x else get_nth l' (i - 1)
  end.

(** toolset.rs:246-260 [get_adjusted_index], [get_ratchet] *)
Definition get_ratchet (t : toolset) (version : N) : option ratchet :=
  get_nth (ts_map t) (wsub (ts_most_recent t) version).

(** Histories. *)
Inductive op := Update (r : ratchet) | Truncate (version : N).
Inductive out := OUpdate (s : option update_status) | OTruncate (r : dereg_result).

Definition step (t : toolset) (o : op) : out * toolset :=
  match o with
  | Update r => let '(s, t') := update_from t r in (OUpdate s, t')
  | Truncate v => let '(s, t') := deregister_oldest_ratchet t v in (OTruncate s, t')
  end.

Fixpoint run (t : toolset) (ops : list op) : list out * toolset :=
  match ops with
  | [] => ([], t)
  | o :: ops' =>
      let '(x, t1) := step t o in
      let '(xs, t2) := run t1 ops' in (x :: xs, t2)
  end.

(** An update followed, if the answer asks for it, by the truncation it names: the discipline of
    ratchet_manager.rs:1180-1215 and 1292-1330 seen from one end. *)
Definition update_and_sync (t : toolset) (r : ratchet) : option dereg_result * toolset :=
  match update_from t r with
  | (Some (CommittedNeedsSynchronization _ oldest), t') =>
      let '(d, t'') := deregister_oldest_ratchet t' oldest in (Some d, t'')
  | (_, t') => (None, t')
  end.
End toolset.
Arguments ratchet : clear implicits.
Arguments toolset : clear implicits.
Arguments op : clear implicits.
