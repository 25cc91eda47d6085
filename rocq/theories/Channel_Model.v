(** Model of one direction of a channel between two ends: from the call of
    [send] on one end to the messages the other end reads.

    Sources:
    - citadel_crypt/src/messaging.rs 54-210 (background task), 233-291 ([send]),
      293-310 (reading), 312-335 (dropping one half)
    - citadel_crypt/src/ratchets/ratchet_manager.rs 300-672
      (trigger_rekey_with_payload, as far as the messenger sees it), 705-765
      (notifications), 860-863 and 1491-1497 (payloads handed on)
    - citadel_proto/src/proto/session.rs 1936-2024 (send_ratchet_message),
      1475, 1521-1524, 1578-1582, 1641-1646 (the numbers a file transfer takes)
    - citadel_proto/src/proto/state_container/channels.rs 9-22 and
      virtual_connections.rs 140-330 (the two ordered channels)
    - citadel_crypt/src/ordered_channel.rs: Ordered_Model.v

    Simplifications.
    - What a re-key trigger comes to is an input: the message rides on the first
      packet of a re-key, or is handed back, or the trigger fails and the message
      with it.  (When each of them happens is the subject of Rekey_Model.v.)
    - A re-key message without a payload is [RKey None].
    - Packets arrive in any order, each once and unaltered (C01, C04); the
      connection stays up and its stream is available.
    - The receiving ratchet manager hands on the payload of a message as soon as
      the message comes out of the ordered channel.
    - Counters are unbounded. *)
From Coq Require Import ZifyBool ZifyNat ZifyN.
From stdpp Require Import prelude gmap.
From Verif Require Import Ordered_Model.
Local Open Scope N_scope.

(** session.rs 2576-2581: the text and the security level asked for *)
Record umsg := Umsg { um_text : N; um_level : N }.
Global Instance umsg_eq_dec : EqDecision umsg.
Proof. solve_decision. Defined.

(** messaging.rs 221-225: with its number *)
Definition omsg : Type := N * umsg.

(** ratchet_manager.rs 163-180: JustMessage, and the messages of a re-key, of
    which the first may carry a payload *)
Inductive rmsg := RJust (x : omsg) | RKey (x : option omsg).
Global Instance rmsg_eq_dec : EqDecision rmsg.
Proof. solve_decision. Defined.

Definition payload (r : rmsg) : option omsg :=
  match r with RJust x => Some x | RKey x => x end.

(** packet_crafter.rs 212-285: the header fields used here *)
Record packet := Packet { pk_group : N; pk_level : N; pk_msg : rmsg }.
Global Instance packet_eq_dec : EqDecision packet.
Proof. solve_decision. Defined.

(** the running call of [send] *)
Inductive sending :=
| SNone
| STrigger (x : omsg)     (* in trigger_rekey_with_payload *)
| SBack (x : omsg).       (* the message came back *)

(** the task that empties the queue: messaging.rs 85-149 *)
Inductive drain :=
| DIdle                   (* waits for a notification *)
| DLoop                   (* about to look at the queue *)
| DTrigger (x : omsg)
| DBack (x : omsg).       (* about to put it back *)

Record chan := Chan {
  ch_perfect : bool;              (* SecrecyMode::Perfect *)
  ch_p2p : bool;                  (* a connection between peers, or to the server *)
  ch_up : bool;                   (* is_active of the sending end *)
  ch_next : N;                    (* message_id *)
  ch_sending : sending;
  ch_queue : list omsg;           (* enqueued_messages *)
  ch_drain : drain;
  ch_notes : nat;                 (* unread notifications *)
  ch_out : list rmsg;             (* on the way to the message sender task *)
  ch_group : N;                   (* incrementing_group_id_messaging *)
  ch_file : N;                    (* incrementing_group_id_file_transfer *)
  ch_wire : list packet;
  ch_packets : och rmsg;          (* to_ordered_local_channel of the receiving end *)
  ch_msgs : och umsg;             (* the messenger's ordered channel *)
  ch_read : nat;                  (* messages taken by the reader *)
  ch_rup : bool }.                (* is_active of the receiving end *)

Definition chan0 (perfect p2p : bool) : chan :=
  Chan perfect p2p true 0 SNone [] DIdle 0 [] 0 0 [] och_new och_new 0 true.

Definition with_sending x s := Chan (ch_perfect s) (ch_p2p s) (ch_up s) (ch_next s) x (ch_queue s) (ch_drain s) (ch_notes s) (ch_out s) (ch_group s) (ch_file s) (ch_wire s) (ch_packets s) (ch_msgs s) (ch_read s) (ch_rup s).
Definition with_next x s := Chan (ch_perfect s) (ch_p2p s) (ch_up s) x (ch_sending s) (ch_queue s) (ch_drain s) (ch_notes s) (ch_out s) (ch_group s) (ch_file s) (ch_wire s) (ch_packets s) (ch_msgs s) (ch_read s) (ch_rup s).
Definition with_queue x s := Chan (ch_perfect s) (ch_p2p s) (ch_up s) (ch_next s) (ch_sending s) x (ch_drain s) (ch_notes s) (ch_out s) (ch_group s) (ch_file s) (ch_wire s) (ch_packets s) (ch_msgs s) (ch_read s) (ch_rup s).
Definition with_drain x s := Chan (ch_perfect s) (ch_p2p s) (ch_up s) (ch_next s) (ch_sending s) (ch_queue s) x (ch_notes s) (ch_out s) (ch_group s) (ch_file s) (ch_wire s) (ch_packets s) (ch_msgs s) (ch_read s) (ch_rup s).
Definition with_notes x s := Chan (ch_perfect s) (ch_p2p s) (ch_up s) (ch_next s) (ch_sending s) (ch_queue s) (ch_drain s) x (ch_out s) (ch_group s) (ch_file s) (ch_wire s) (ch_packets s) (ch_msgs s) (ch_read s) (ch_rup s).
Definition with_out x s := Chan (ch_perfect s) (ch_p2p s) (ch_up s) (ch_next s) (ch_sending s) (ch_queue s) (ch_drain s) (ch_notes s) x (ch_group s) (ch_file s) (ch_wire s) (ch_packets s) (ch_msgs s) (ch_read s) (ch_rup s).
Definition with_ids g f s := Chan (ch_perfect s) (ch_p2p s) (ch_up s) (ch_next s) (ch_sending s) (ch_queue s) (ch_drain s) (ch_notes s) (ch_out s) g f (ch_wire s) (ch_packets s) (ch_msgs s) (ch_read s) (ch_rup s).
Definition with_wire x s := Chan (ch_perfect s) (ch_p2p s) (ch_up s) (ch_next s) (ch_sending s) (ch_queue s) (ch_drain s) (ch_notes s) (ch_out s) (ch_group s) (ch_file s) x (ch_packets s) (ch_msgs s) (ch_read s) (ch_rup s).
Definition with_in p m s := Chan (ch_perfect s) (ch_p2p s) (ch_up s) (ch_next s) (ch_sending s) (ch_queue s) (ch_drain s) (ch_notes s) (ch_out s) (ch_group s) (ch_file s) (ch_wire s) p m (ch_read s) (ch_rup s).
Definition with_read x s := Chan (ch_perfect s) (ch_p2p s) (ch_up s) (ch_next s) (ch_sending s) (ch_queue s) (ch_drain s) (ch_notes s) (ch_out s) (ch_group s) (ch_file s) (ch_wire s) (ch_packets s) (ch_msgs s) x (ch_rup s).
Definition with_up x y s := Chan (ch_perfect s) (ch_p2p s) x (ch_next s) (ch_sending s) (ch_queue s) (ch_drain s) (ch_notes s) (ch_out s) (ch_group s) (ch_file s) (ch_wire s) (ch_packets s) (ch_msgs s) (ch_read s) y.

(** what a trigger comes to; an error may notify the messenger (438) or not *)
Inductive trig := TSent | TBack | TErr (note : bool).

Inductive ch_event :=
| ESend (m : umsg)          (* the user calls send *)
| ETrig (t : trig)          (* its trigger returns *)
| EFinish                   (* 246-258, 274-276: what send does with a message handed back *)
| ECancel                   (* the user drops the future of the call *)
| ENote                     (* a re-key round came to an end (705-765) *)
| ERekey                    (* the ratchet manager sends a message of its own *)
| EDTake                    (* 90: the task takes a notification *)
| EDPop                     (* 105-110, 139-141 *)
| EDTrig (t : trig)         (* 114-137 *)
| EDPush                    (* 120-122 *)
| ECraft                    (* session.rs 1936-2024 *)
| EFile (groups : N)        (* a file transfer of so many groups begins *)
| EArrive (i : nat)         (* a packet of the wire arrives *)
| ERead                     (* the user of the other end polls for a message *)
| ECloseSender              (* the sending end drops a half of its channel *)
| ECloseReceiver.           (* the receiving end drops its sending half *)

Inductive ch_out_t :=
| ONothing
| OStart (m : umsg)         (* the call took the message *)
| OOk                       (* the call returned Ok *)
| OErr                      (* the call returned an error *)
| OPacket (p : packet)      (* a packet went out *)
| ORead (m : umsg)          (* the reader got a message *)
| OEnd.                     (* the reader was told that the stream ended *)

(** SecurityLevel::default() *)
Definition STANDARD : N := 0.

(** session.rs 1946-1965 *)
Definition craft_level (r : rmsg) : N :=
  match r with RJust (_, m) => um_level m | RKey _ => STANDARD end.

Definition hand_on (o : och umsg) (r : rmsg) : och umsg :=
  match payload r with Some (id, m) => (on_packet_received o id m).2 | None => o end.

Definition arrive (s : chan) (p : packet) : chan :=
  let before := ch_packets s in
  let after := (on_packet_received before (pk_group p) (pk_msg p)).2 in
  let new := drop (length (och_delivered before)) (och_delivered after) in
  with_in after (foldl hand_on (ch_msgs s) new) s.

Definition ch_step (s : chan) (e : ch_event) : chan * ch_out_t :=
  match e with
  | ESend m =>                                               (* 234-243, 287-291 *)
      match ch_sending s with
      | SNone =>
          if ch_up s
          then (with_sending (STrigger (ch_next s, m)) (with_next (ch_next s + 1) s), OStart m)
          else (s, OErr)
      | _ => (s, ONothing)
      end
  | ETrig t =>
      match ch_sending s with
      | STrigger x =>
          match t with
          | TSent => (with_sending SNone (with_out (ch_out s ++ [RKey (Some x)]) s), OOk)
          | TBack => (with_sending (SBack x) (with_notes (S (ch_notes s)) s), ONothing)
          | TErr note =>
              (with_sending SNone (with_notes (if note then S (ch_notes s) else ch_notes s) s), OErr)
          end
      | _ => (s, ONothing)
      end
  | EFinish =>
      match ch_sending s with
      | SBack x =>
          if ch_perfect s
          then (with_sending SNone (with_queue (ch_queue s ++ [x]) s), OOk)
          else (with_sending SNone (with_out (ch_out s ++ [RJust x]) s), OOk)
      | _ => (s, ONothing)
      end
  | ECancel => (with_sending SNone s, ONothing)
  | ENote => (with_notes (S (ch_notes s)) s, ONothing)
  | ERekey => (with_out (ch_out s ++ [RKey None]) s, ONothing)
  | EDTake =>
      match ch_drain s, ch_notes s with
      | DIdle, S n => (with_drain DLoop (with_notes n s), ONothing)
      | _, _ => (s, ONothing)
      end
  | EDPop =>
      match ch_drain s with
      | DLoop =>
          match ch_queue s with
          | [] => (with_drain DIdle s, ONothing)
          | x :: q => (with_drain (DTrigger x) (with_queue q s), ONothing)
          end
      | _ => (s, ONothing)
      end
  | EDTrig t =>
      match ch_drain s with
      | DTrigger x =>
          match t with
          | TSent => (with_drain DLoop (with_out (ch_out s ++ [RKey (Some x)]) s), ONothing)
          | TBack => (with_drain (DBack x) (with_notes (S (ch_notes s)) s), ONothing)
          | TErr note =>
              (with_drain DIdle (with_notes (if note then S (ch_notes s) else ch_notes s) s), ONothing)
          end
      | _ => (s, ONothing)
      end
  | EDPush =>
      match ch_drain s with
      | DBack x => (with_drain DIdle (with_queue (x :: ch_queue s) s), ONothing)
      | _ => (s, ONothing)
      end
  | ECraft =>
      match ch_out s with
      | [] => (s, ONothing)
      | r :: rest =>
          let p := Packet (ch_group s) (craft_level r) r in
          (with_out rest (with_ids (ch_group s + 1) (ch_file s) (with_wire (ch_wire s ++ [p]) s)), OPacket p)
      end
  | EFile groups =>
      if ch_p2p s
      then (with_ids (ch_group s + 1) (ch_file s + (groups - 1)) s, ONothing)   (* 1578-1582, 1641-1646 *)
      else (with_ids (ch_group s) (ch_file s + 1 + (groups - 1)) s, ONothing)   (* 1475, 1521-1524 *)
  | EArrive i =>
      match ch_wire s !! i with
      | Some p => (arrive (with_wire (delete i (ch_wire s)) s) p, ONothing)
      | None => (s, ONothing)
      end
  | ERead =>                                                 (* 300-310; channel.rs 255-266 *)
      if ch_rup s then
        match och_delivered (ch_msgs s) !! ch_read s with
        | Some m => (with_read (S (ch_read s)) s, ORead m)
        | None => (s, ONothing)
        end
      else (s, OEnd)
  | ECloseSender => (with_up false (ch_rup s) s, ONothing)   (* 312-335 *)
  | ECloseReceiver => (with_up (ch_up s) false s, ONothing)
  end.

Fixpoint ch_run (s : chan) (es : list ch_event) : chan * list ch_out_t :=
  match es with
  | [] => (s, [])
  | e :: es =>
      let '(s1, o) := ch_step s e in
      let '(s2, os) := ch_run s1 es in (s2, o :: os)
  end.
