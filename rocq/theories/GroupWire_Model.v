(** Group signals as they come in on a session.

    Source: /repo/citadel_proto/src/proto/packet_processor/peer/group_broadcast.rs 285-302 and
    peer_cmd_packet.rs 79-130.  The account for which the server acts on a group signal is the one
    in the packet header (group_broadcast.rs 300).  The header is authenticated with the keys of the
    session, so its contents are chosen by that session's client; it is not compared with the
    account of the session.  Replies go back on the session itself. *)
From Coq Require Import ZifyBool ZifyNat ZifyN.
From stdpp Require Import prelude gmap.
From Verif Require Import GroupServer_Model.
Local Open Scope N_scope.

(** the notes that are replies to the sender of the signal (ReplyToSender), in [handle] *)
Definition is_reply (n : note) : bool :=
  match n with
  | NJoinPending _ _ | NNonExists _ | NAccepted _ _ | NResponse _ _ | NCreated _ | NGroups _ | NAdded _ _ => true
  | _ => false
  end.
Definition redirect (c : N) (e : effect) : effect :=
  match e with Sent to n => Sent (if is_reply n then c else to) n | _ => e end.

(** [WReq c h r]: the signal [r] comes in on the session of [c] with the account [h] in its header *)
Inductive wevent := WReq (c h : N) (r : req) | WOther (e : event).
Definition wire_step (s : server) (e : wevent) : server * list effect :=
  match e with
  | WReq c h r => let '(s', out) := handle s h r in (s', redirect c <$> out)
  | WOther e => sv_step s e
  end.
Fixpoint wire_run (s : server) (es : list wevent) : server * list effect :=
  match es with
  | [] => (s, [])
  | e :: rest => let '(s1, x) := wire_step s e in let '(s2, y) := wire_run s1 rest in (s2, x ++ y)
  end.
(** clients that put their own account into the header; [WOther] is for what is no signal of a client *)
Definition own_header (e : wevent) : option event :=
  match e with
  | WReq c h r => if h =? c then Some (EReq c r) else None
  | WOther (EReq _ _) => None
  | WOther e => Some e
  end.
