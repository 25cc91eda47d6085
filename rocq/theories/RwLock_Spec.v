(** What the properties of the network read-write lock (C105 to C109) say. *)
From stdpp Require Import prelude.
From Verif Require Import RwLock_Model.

(** the user at [s] holds a guard returned by read() or by write() *)
Definition reading (w : rworld) (s : bool) : Prop := 0 < r_readers (rw_node w s) ∨ r_mode (rw_node w s) = Odd KRead.
Definition writing (w : rworld) (s : bool) : Prop := r_mode (rw_node w s) = Writer ∨ r_mode (rw_node w s) = Odd KWrite.

(** A write guard is the only guard there is. *)
Definition exclusive (w : rworld) : Prop :=
  ∀ s, writing w s → ∀ t, ¬ reading w t ∧ (writing w t → t = s).

(** The value last written through a write guard. *)
Fixpoint last_written (w : rworld) (es : list revent) (v : N) : N :=
  match es with
  | [] => v
  | e :: rest =>
      last_written (rstep w e).1 rest
        match e with Mutate s v' => match r_mode (rw_node w s) with Writer => v' | _ => v end | _ => v end
  end.

(** The guards handed out are of use: nothing panics. *)
Definition no_panic (os : list robs) : Prop := ∀ s, Panics s ∉ os.
(** No guard is handed out in a continuation. *)
Definition starved (w : rworld) (es : list revent) : Prop := ∀ s k v, Granted s k v ∉ (rrun w es).2.
(** a call that has not been answered *)
Definition waiting (w : rworld) (s : bool) : Prop :=
  r_sent (rw_node w s) ≠ [] ∨ r_queued (rw_node w s) ≠ [] ∨
  (∃ want cur t, r_mode (rw_node w s) = Trying want cur t) ∨ ∃ want cur t, r_mode (rw_node w s) = AcqYield want cur t.
(** nobody holds a guard *)
Definition idle (w : rworld) : Prop := ∀ s, ¬ reading w s ∧ ¬ writing w s.

(** A request loses to a request of the other kind that was made at the same time: the
    next packet for [s] is a request of kind [k] while [s] asks with a lock of the other
    kind, and the request of [s] is the later one. *)
Definition mixed (w : rworld) (e : revent) : Prop :=
  ∃ s want cur t t' k rest, e = Deliver s ∧ r_mode (rw_node w s) = Trying want cur t ∧
    rw_out w (negb s) = TryAcquire t' k :: rest ∧ k ≠ cur ∧ local_wins s t t' = false.
Fixpoint unmixed (w : rworld) (es : list revent) : Prop :=
  match es with [] => True | e :: rest => ¬ mixed w e ∧ unmixed (rstep w e).1 rest end.

(** Every request of a run is made at a later time than all earlier ones, at either end:
    the clocks of the nodes are the same. *)
Fixpoint one_clock (now : Z) (es : list revent) : Prop :=
  match es with
  | [] => True
  | Acquire _ t :: rest => (now < t)%Z ∧ one_clock t rest
  | _ :: rest => one_clock now rest
  end.
(** The clock of each node runs forwards. *)
Fixpoint clocks (now : bool → Z) (es : list revent) : Prop :=
  match es with
  | [] => True
  | Acquire s t :: rest => (now s < t)%Z ∧ clocks (rupd now s t) rest
  | _ :: rest => clocks now rest
  end.
(** only locks of kind [k] are asked for *)
Definition asks (k : kind) (e : revent) : Prop := match e with Call _ x => x = k | _ => True end.
(** nobody asks anew *)
Definition quiet (e : revent) : Prop := match e with Call _ _ => False | _ => True end.
