(** What the properties of the network mutex (C40, C41, C42, C66, C67) say. *)
From stdpp Require Import prelude.
From Verif Require Import NetMutex_Model.

Definition holds (w : mworld) (s : bool) : Prop := m_mode (mw_node w s) = Guard.
(** both ends hold a guard *)
Definition clash (w : mworld) : Prop := holds w true ∧ holds w false.

(** no lock() future is dropped and the mutex itself stays *)
Definition ordinary (e : mevent) : Prop := match e with Cancel _ | DropMutex _ => False | _ => True end.
(** nor does anyone ask anew *)
Definition quiet (e : mevent) : Prop := match e with Signal _ | Cancel _ | DropMutex _ => False | _ => True end.

(** the value last written: that of the last guard dropped (only a guard that is held can be dropped) *)
Fixpoint last_written (w : mworld) (es : list mevent) (v : N) : N :=
  match es with
  | [] => v
  | e :: rest =>
      last_written (mstep w e).1 rest
        match e with DropGuard s v' => match m_mode (mw_node w s) with Guard => v' | _ => v end | _ => v end
  end.
(** a lock() call that has not been answered *)
Definition waiting (w : mworld) (s : bool) : Prop :=
  0 < m_sent (mw_node w s) + m_queued (mw_node w s) ∨ (∃ t, m_mode (mw_node w s) = Trying t) ∨ m_mode (mw_node w s) = AcqYield.
(** no guard is handed out in any continuation *)
Definition starved (w : mworld) (es : list mevent) : Prop := (mrun w es).2 = [].
