(** Vocabulary for the messages of a channel. *)
From Coq Require Import ZifyBool ZifyNat ZifyN.
From stdpp Require Import prelude gmap.
From Verif Require Import Ordered_Model Channel_Model.
Local Open Scope N_scope.

Definition ends (perfect p2p : bool) (es : list ch_event) : chan := (ch_run (chan0 perfect p2p) es).1.
Definition outs (perfect p2p : bool) (es : list ch_event) : list ch_out_t := (ch_run (chan0 perfect p2p) es).2.

(** The messages for which [send] was called, in order; those among the calls
    that returned Ok; those read; the packets that went out. *)
Definition submitted (os : list ch_out_t) : list umsg :=
  omap (λ o, match o with OStart m => Some m | _ => None end) os.
Fixpoint accepted_from (cur : option umsg) (os : list ch_out_t) : list umsg :=
  match os with
  | [] => []
  | OStart m :: os => accepted_from (Some m) os
  | OOk :: os => match cur with Some m => m :: accepted_from None os | None => accepted_from None os end
  | OErr :: os => accepted_from None os
  | _ :: os => accepted_from cur os
  end.
Definition accepted : list ch_out_t → list umsg := accepted_from None.
Definition read (os : list ch_out_t) : list umsg :=
  omap (λ o, match o with ORead m => Some m | _ => None end) os.
Definition packets (os : list ch_out_t) : list packet :=
  omap (λ o, match o with OPacket p => Some p | _ => None end) os.

(** What the other end has ready for its reader, or has given to it. *)
Definition delivered (s : chan) : list umsg := och_delivered (ch_msgs s).

(** Nothing is under way: without a new call, a new re-key or a new packet from
    outside nothing will happen any more. *)
Definition quiet (s : chan) : Prop :=
  ch_sending s = SNone ∧ ch_drain s = DIdle ∧ ch_notes s = 0%nat ∧ ch_out s = [] ∧ ch_wire s = [].
Global Instance quiet_dec s : Decision (quiet s).
Proof.
  unfold quiet. destruct (ch_sending s); [|right; by intros [? _]..].
  destruct (ch_drain s); [|right; by intros (_ & ? & _)..].
  destruct (decide (ch_notes s = 0%nat ∧ ch_out s = [] ∧ ch_wire s = [])) as [H|H];
    [left|right]; naive_solver.
Defined.

(** Fewer than 2^64 - 1 things happen, so that no counter overflows. *)
Definition short (es : list ch_event) : Prop := N.of_nat (length es) < 2 ^ 64 - 1.

(** No trigger fails and no call is dropped. *)
Definition is_failure (e : ch_event) : bool :=
  match e with ETrig (TErr _) | EDTrig (TErr _) | ECancel => true | _ => false end.
Definition is_file (e : ch_event) : bool := match e with EFile _ => true | _ => false end.

(** A call whose message was handed back puts it into the queue before anything
    else happens. *)
Fixpoint prompt (es : list ch_event) : Prop :=
  match es with
  | [] => True
  | e :: rest =>
      (match e, rest with
       | ETrig TBack, EFinish :: _ => True
       | ETrig TBack, _ => False
       | _, _ => True
       end) ∧ prompt rest
  end.
