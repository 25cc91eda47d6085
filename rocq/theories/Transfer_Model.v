(** Model of one file transfer: from the source file over the groups and waves to
    the file the receiver writes and the status both users see.

    Sources:
    - citadel_crypt/src/scramble/streaming_crypt_scrambler.rs 190-275 (size of the groups), 335-415
      (reading group by group)
    - citadel_proto/src/proto/session.rs 1410-1885 (process_outbound_file)
    - citadel_proto/src/proto/state_container/outbound_transfer.rs 8-258
    - citadel_proto/src/proto/state_container/inbound_transfer.rs 10-508
    - citadel_proto/src/proto/packet_processor/primary_group_packet.rs 115-420
    - citadel_proto/src/proto/packet_processor/file_packet.rs 85-235
    - citadel_crypt/src/scramble/crypt_splitter.rs 1145-1147, 1170-1203
    - citadel_crypt/src/endpoint_crypto_container.rs 322-329, 344-348 (numbers of groups)

    Simplifications.
    - The packets of a wave are one message, sent and received when the last packet
      of the wave is; that a group is put together again from its packets is the
      subject of Splitter_Model.v.  [take_all_packets] empties a hash map, so the
      waves of a group are completed in any order: [t_order].
    - The two directions of the connection are queues that lose nothing and keep
      the order (TCP, QUIC); a connection that ends is a run that ends.
    - The timers that drop a transfer after a long silence are not modelled, nor
      disk errors, nor a user who drops the handle without an answer.
    - One transfer with its object number; the maps of the other transfers of the
      session are not touched by it.  What it shares with them is the number of its
      first group: [t_start], see [c2s_starts].
    - [is_atleast_fifty_percent_done] compares 32-bit floats; the numbers are exact
      below 2^24 packets and unbounded here. *)
From Coq Require Import ZifyBool ZifyNat ZifyN.
From stdpp Require Import prelude gmap.
Local Open Scope N_scope.

Notation bytes := (list N).

(** ** The groups of a file *)
(** streaming_crypt_scrambler.rs 370-377: pieces of [m] bytes, the last one shorter *)
Fixpoint pieces (fuel m : nat) (d : bytes) : list bytes :=
  match fuel with
  | O => []
  | S f => match d with [] => [] | _ => take m d :: pieces f m (drop m d) end
  end.
Definition split (m : nat) (d : bytes) : list bytes := pieces (length d) m d.

Inductive out (A : Type) := Fine (a : A) | Refused | Panics.
Arguments Fine {A}. Arguments Refused {A}. Arguments Panics {A}.
(** streaming_crypt_scrambler.rs 55-56 *)
Definition max_bytes : N := 1024 * 1024 * 10.
Definition default_bytes : N := 1024 * 1024 * 3.
(** streaming_crypt_scrambler.rs 209-219: the size of a group; [div_ceil] divides by it *)
Definition group_size (max_group_size : option N) : out N :=
  let m := default default_bytes max_group_size in
  if max_bytes <? m then Refused else if m =? 0 then Panics else Fine m.

(** ** Numbers of groups *)
(** session.rs 1475 and 1519-1524: transfers to the server take their numbers from one counter; the transfer takes one
    number, and then one more for every group after the first *)
Fixpoint c2s_starts (counter : N) (counts : list nat) : list N :=
  match counts with
  | [] => []
  | n :: rest => counter :: c2s_starts (counter + 1 + N.of_nat (n - 1)) rest
  end.

(** ** A transfer *)
(** the waves of a group: number of packets and plaintext *)
Notation group := (list (N * bytes)).
Definition group_bytes (ws : group) : bytes := concat (snd <$> ws).
Definition needed (ws : group) : N := foldr (λ p a, fst p + a) 0 ws.

Record cfg := mk_cfg {
  t_start : N;                    (* number of the first group *)
  t_groups : list group;
  t_order : nat → list nat;       (* order in which the waves of a group are completed *)
  t_dec : bytes → option bytes }. (* local decryption: inbound_transfer.rs 397-406; [Some] for plain transfers *)
Definition total (c : cfg) : nat := length (t_groups c).
Definition gid (c : cfg) (rel : nat) : N := t_start c + N.of_nat rel.

Inductive smsg :=
| FileHeader
| GroupHeader (g : N) (waves : nat)
| Wave (g : N) (w : nat) (part : bytes).
Inductive rmsg :=
| HeaderAck (ok : bool)
| GroupHeaderAck (g : N)
| WaveAck (g : N) (w : nat)
| FileError (known : bool).      (* file_packet.rs 86-123; [known]: with the object number of the transfer *)
Global Instance smsg_eq_dec : EqDecision smsg.
Proof. solve_decision. Defined.
Global Instance rmsg_eq_dec : EqDecision rmsg.
Proof. solve_decision. Defined.

(** what the users see: citadel_types/src/proto/mod.rs ObjectTransferStatus.  [RComplete] carries what was written. *)
Inductive sstat := SBegin | STick (rel : nat) | SComplete | SFail.
Inductive rstat := RBegin | RTick (g : N) | RComplete (content : bytes) | RFail.
Global Instance sstat_eq_dec : EqDecision sstat.
Proof. solve_decision. Defined.
Global Instance rstat_eq_dec : EqDecision rstat.
Proof. solve_decision. Defined.

(** ** The sender *)
(** an OutboundTransmitterContainer *)
Record tx := mk_tx { x_rel : nat; x_acked : N; x_alert : bool (* object_notifier is there *) }.
Record snd_st := mk_snd {
  s_on : option bool;             (* what the receiver's user said: [start_rx] *)
  s_k : nat;                      (* groups taken from the scrambler *)
  s_wait : bool;                  (* the loop waits at [next_gs_alerter_rx] *)
  s_note : nat;                   (* signals in [next_gs_alerter_rx] *)
  s_tx : gmap N tx;               (* outbound_transmitters *)
  s_hook : bool;                  (* the loop ended; [post_close_hook] ran *)
  s_stat : list sstat;
  s_panic : bool }.

(** session.rs 1727-1850: one turn of the loop that takes the groups from the scrambler *)
Definition snd_loop (c : cfg) (s : snd_st) : option (snd_st * list smsg) :=
  if s_panic s || s_hook s || negb (bool_decide (s_on s = Some true)) then None
  else if s_wait s then
    match s_note s with
    | O => None
    | S n => Some (mk_snd (s_on s) (s_k s) false n (s_tx s) false (s_stat s) false, [])
    end
  else match t_groups c !! s_k s with
       | Some ws =>
           Some (mk_snd (s_on s) (S (s_k s)) true (s_note s)
                   (<[gid c (s_k s) := mk_tx (s_k s) 0 true]> (s_tx s)) false (s_stat s) false,
                 [GroupHeader (gid c (s_k s)) (length ws)])
       | None => Some (mk_snd (s_on s) (s_k s) false (s_note s) (s_tx s) true (s_stat s) false, [])
       end.

Definition with_stat (s : snd_st) (x : sstat) : snd_st :=
  mk_snd (s_on s) (s_k s) (s_wait s) (s_note s) (s_tx s) (s_hook s) (s_stat s ++ [x]) (s_panic s).

(** outbound_transfer.rs 152-258 with crypt_splitter.rs 1170-1197 *)
Definition snd_wave_ack (c : cfg) (s : snd_st) (g : N) (w : nat) : snd_st :=
  match s_tx s !! g with
  | None => s
  | Some x =>
      match t_groups c !! x_rel x with
      | None => s
      | Some ws =>
          let acked := x_acked x + match ws !! w with Some p => p.1 | None => 0 end in
          let finished := match ws !! w with Some _ => acked =? needed ws | None => false end in
          let half := 2 * needed ws <=? 3 * acked in
          let alert := x_alert x && (finished || half) in
          mk_snd (s_on s) (s_k s) (s_wait s) (if alert then S (s_note s) else s_note s)
            (if finished then delete g (s_tx s) else <[g := mk_tx (x_rel x) acked (x_alert x && negb alert)]> (s_tx s))
            (s_hook s)
            (if finished then s_stat s ++ [if Nat.eqb (x_rel x) (total c - 1) then SComplete else STick (x_rel x)] else s_stat s)
            (s_panic s)
      end
  end.

(** the waves of a group, in the order in which they are completed *)
Definition group_msgs (c : cfg) (rel : nat) : list smsg :=
  match t_groups c !! rel with
  | None => []
  | Some ws => (λ w, Wave (gid c rel) w (match ws !! w with Some p => p.2 | None => [] end)) <$> t_order c rel
  end.

Definition snd_recv (c : cfg) (s : snd_st) (m : rmsg) : snd_st * list smsg :=
  if s_panic s then (s, []) else
  match m with
  | HeaderAck ok =>
      (* outbound_transfer.rs 8-110: [start] and [stop_tx] can be used once *)
      match s_on s with
      | Some _ => (s, [])
      | None =>
          let s' := mk_snd (Some ok) (s_k s) (s_wait s) (s_note s) (s_tx s) (s_hook s) (s_stat s) (s_panic s) in
          (with_stat s' (if ok then SBegin else SFail), [])
      end
  | GroupHeaderAck g =>
      (* outbound_transfer.rs 118-146: [unwrap] of the look-up; then all packets are sent *)
      match s_tx s !! g with
      | None => (mk_snd (s_on s) (s_k s) (s_wait s) (s_note s) (s_tx s) (s_hook s) (s_stat s) true, [])
      | Some x => (s, group_msgs c (x_rel x))
      end
  | WaveAck g w => (snd_wave_ack c s g w, [])
  | FileError known => (if known then with_stat s SFail else s, [])
  end.

(** ** The receiver *)
Record rgroup := mk_rg { rg_waves : nat; rg_parts : gmap nat bytes }.
Inductive answer := Undecided | Accepted | Declined.
Global Instance answer_eq_dec : EqDecision answer.
Proof. solve_decision. Defined.
Record rcv_st := mk_rcv {
  r_file : option (list bytes);   (* inbound_files: what went into [stream_to_hd] *)
  r_groups : gmap N rgroup;       (* inbound_groups *)
  r_done : option (N * nat * list bytes); (* the file is removed from the map; [reception_complete_tx] was used *)
  r_stat : list rstat }.

Definition rg_bytes (r : rgroup) : bytes := concat ((λ w, default [] (rg_parts r !! w)) <$> seq 0 (rg_waves r)).

(** inbound_transfer.rs 84-297 (file header), 10-79 (group header), 299-508 (payload); primary_group_packet.rs 130-172,
    226-296: the group header is acknowledged whether it was accepted or not *)
Definition rcv_recv (c : cfg) (r : rcv_st) (m : smsg) : rcv_st * list rmsg :=
  match m with
  | FileHeader =>
      match r_file r with
      | Some _ => (r, [])
      | None => (mk_rcv (Some []) (r_groups r) (r_done r) (r_stat r), [])
      end
  | GroupHeader g n =>
      match r_file r, r_groups r !! g with
      | Some _, None => (mk_rcv (r_file r) (<[g := mk_rg n ∅]> (r_groups r)) (r_done r) (r_stat r), [GroupHeaderAck g])
      | _, _ => (r, [GroupHeaderAck g])
      end
  | Wave g w part =>
      match r_groups r !! g with
      | None => (r, [FileError false])
      | Some rg =>
          match rg_parts rg !! w with
          | Some _ => (r, [])
          | None =>
              if Nat.leb (rg_waves rg) w then (r, [])
              else
                let rg' := mk_rg (rg_waves rg) (<[w := part]> (rg_parts rg)) in
                if Nat.ltb (size (rg_parts rg')) (rg_waves rg)
                then (mk_rcv (r_file r) (<[g := rg']> (r_groups r)) (r_done r) (r_stat r), [WaveAck g w])
                else
                  let groups := delete g (r_groups r) in
                  match r_file r with
                  | None => (mk_rcv None groups (r_done r) (r_stat r ++ [RFail]), [FileError true])
                  | Some sink =>
                      match t_dec c (rg_bytes rg') with
                      | None => (mk_rcv (Some sink) groups (r_done r) (r_stat r ++ [RFail]), [FileError true])
                      | Some chunk =>
                          (* inbound_transfer.rs 415: the number of the group against the number of groups *)
                          if N.of_nat (total c - 1) <=? g
                          then (mk_rcv None groups (Some (g, w, sink ++ [chunk])) (r_stat r), [])
                          else (mk_rcv (Some (sink ++ [chunk])) groups (r_done r) (r_stat r ++ [RTick g]), [WaveAck g w])
                      end
                  end
          end
      end
  end.

(** ** Both ends and the connection between them *)
Record st := mk_st {
  st_s : snd_st; st_r : rcv_st;
  st_ans : answer;
  st_hs : list smsg;  (* everything sent to the receiver *)
  st_b : nat;         (* how much of it has arrived *)
  st_hr : list rmsg;  (* everything sent to the sender *)
  st_c : nat }.

Inductive ev :=
| EvLoop      (* the sender's loop *)
| EvToR       (* the next message reaches the receiver *)
| EvToS       (* the next message reaches the sender *)
| EvAccept    (* the receiver's user accepts *)
| EvDecline
| EvWritten.  (* the backend has written the file: inbound_transfer.rs 199-246 *)

Definition init : st :=
  mk_st (mk_snd None 0 false 0 ∅ false [] false) (mk_rcv None ∅ None []) Undecided [FileHeader] 0 [] 0.

Definition step (c : cfg) (x : st) (e : ev) : option st :=
  match e with
  | EvLoop =>
      match snd_loop c (st_s x) with
      | Some (s', ms) => Some (mk_st s' (st_r x) (st_ans x) (st_hs x ++ ms) (st_b x) (st_hr x) (st_c x))
      | None => None
      end
  | EvToR =>
      match st_hs x !! st_b x with
      | Some m =>
          let '(r', ms) := rcv_recv c (st_r x) m in
          Some (mk_st (st_s x) r' (st_ans x) (st_hs x) (S (st_b x)) (st_hr x ++ ms) (st_c x))
      | None => None
      end
  | EvToS =>
      match st_hr x !! st_c x with
      | Some m =>
          let '(s', ms) := snd_recv c (st_s x) m in
          Some (mk_st s' (st_r x) (st_ans x) (st_hs x ++ ms) (st_b x) (st_hr x) (S (st_c x)))
      | None => None
      end
  | EvAccept =>
      match st_ans x, r_file (st_r x) with
      | Undecided, Some _ =>
          let r := st_r x in
          Some (mk_st (st_s x) (mk_rcv (r_file r) (r_groups r) (r_done r) (r_stat r ++ [RBegin])) Accepted
                  (st_hs x) (st_b x) (st_hr x ++ [HeaderAck true]) (st_c x))
      | _, _ => None
      end
  | EvDecline =>
      match st_ans x, r_file (st_r x) with
      | Undecided, Some _ =>
          let r := st_r x in
          Some (mk_st (st_s x) (mk_rcv None (r_groups r) (r_done r) (r_stat r ++ [RFail])) Declined
                  (st_hs x) (st_b x) (st_hr x ++ [HeaderAck false]) (st_c x))
      | _, _ => None
      end
  | EvWritten =>
      match st_ans x, r_done (st_r x) with
      | Accepted, Some (g, w, sink) =>
          let r := st_r x in
          Some (mk_st (st_s x) (mk_rcv (r_file r) (r_groups r) None (r_stat r ++ [RComplete (concat sink)])) Accepted
                  (st_hs x) (st_b x) (st_hr x ++ [WaveAck g w]) (st_c x))
      | _, _ => None
      end
  end.

Fixpoint run (c : cfg) (x : st) (es : list ev) : option st :=
  match es with
  | [] => Some x
  | e :: es' => match step c x e with Some x' => run c x' es' | None => None end
  end.

(** ** Put into the remote encrypted filesystem, and got back *)
(** crypt_splitter.rs 255-260: each group is encrypted with a key of the sender before it is sent; the other side stores
    what it gets (inbound_transfer.rs 360-410, file_io_backend.rs 345-407) *)
Definition stored (enc : bytes → bytes) (m : nat) (d : bytes) : bytes := concat (enc <$> split m d).
(** file_packet.rs 244-300: the stored file is sent back as a plain transfer in groups of the default size [m] *)
Definition pull_groups (slice : bytes → group) (m : nat) (file : bytes) : list group := slice <$> split m file.
