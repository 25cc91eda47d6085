(** Model of the partitioned packet buffer and of the message packet builder:
    citadel_crypt/src/secure_buffer/partitioned_sec_buffer.rs and sec_packet.rs.
    Zeroisation and capacity are not modelled. Sizes are [N]; a callback writing into a window is a
    function from the window's bytes to its new bytes and a success flag (Rust gives it a [&mut [u8]],
    so the length cannot change; see [cb_ok] in SecPacket_Spec.v). *)
From stdpp Require Import prelude.
From Verif Require Import Bytes.
Local Open Scope N_scope.

Definition callback : Type := list N -> list N * bool.

(** partitioned_sec_buffer.rs:65-69; [layout] has one entry per partition *)
Record psb := mk_psb { layout : list N; buf : list N }.

(** partitioned_sec_buffer.rs:77-90 [new] *)
Definition psb_new (n : nat) : option psb :=
  match n with O => None | _ => Some (mk_psb (repeat 0 n) []) end.

(** partitioned_sec_buffer.rs:185-216 [check_reserve] (with check_index 163-172) *)
Definition check_reserve (b : psb) (idx : nat) : bool :=
  (idx <? length (layout b))%nat
  && forallb (fun l => negb (l =? 0)) (take idx (layout b))
  && forallb (fun l => l =? 0) (drop idx (layout b)).

(** partitioned_sec_buffer.rs:103-113 [reserve_partition]; [len : u32] *)
Definition reserve (b : psb) (idx : nat) (len : N) : option psb :=
  if check_reserve b idx
  then Some (mk_psb (<[idx := len]> (layout b)) (buf b ++ repeat 0 (N.to_nat len)))
  else None.

(** partitioned_sec_buffer.rs:141-153 [get_range]: the start is a sum of [u32]s taken in [u32]. In a
    release build it wraps, as here; a debug build panics instead. *)
Definition sum32 (l : list N) : N := foldl (fun a x => (a + x) mod 2 ^ 32) 0 l.
Definition get_range (b : psb) (idx : nat) : option (N * N) :=
  match layout b !! idx with
  | None => None
  | Some l =>
      let start := sum32 (take idx (layout b)) in
      Some (start, if (idx + 1 =? length (layout b))%nat then N.of_nat (length (buf b)) else start + l)
  end.

(** partitioned_sec_buffer.rs:124-130 [partition_window] + 236-246 [DerefMut]: run a callback on the
    window. A bad index is an error; an out-of-range window is a slice panic ([None]). *)
Definition with_window (b : psb) (idx : nat) (f : callback) : option (psb * bool) :=
  match get_range b idx with
  | None => Some (b, false)
  | Some (s, e) =>
      if (s <=? e) && (e <=? N.of_nat (length (buf b))) then
        let s' := N.to_nat s in let e' := N.to_nat e in
        let '(w, ok) := f (take (e' - s') (drop s' (buf b))) in
        Some (mk_psb (layout b) (take s' (buf b) ++ w ++ drop e' (buf b)), ok)
      else None
  end.

(** sec_packet.rs:130-134: three partitions (header 0, payload 1, extension 2) *)
Inductive smp := PayloadNext (b : psb) | HeaderNext (b : psb) | FinalPayloadExt (b : psb).
Definition smp_psb (p : smp) : psb := match p with PayloadNext b | HeaderNext b | FinalPayloadExt b => b end.

(** sec_packet.rs:138-142 [new]; [n]: the header length *)
Definition smp_new (n : N) : option smp :=
  match psb_new 3 with
  | None => None
  | Some b => match reserve b 0 n with None => None | Some b' => Some (PayloadNext b') end
  end.

(** Results of a call: new state and whether it returned [Ok]; [None] is a panic. *)
Notation res := (option (smp * bool)) (only parsing).

(** sec_packet.rs:174-204 [write_payload]: 4-byte length prefix, then the callback on the rest. (A
    window shorter than 4 would panic; it does not occur, [len + 4] bytes are reserved.) *)
Definition prefix_cb (len : N) (f : callback) : callback := fun w =>
  if (length w <? 4)%nat then (w, false) else
  let '(r, ok) := f (drop 4 w) in (be_enc 4 len ++ r, ok).
Definition write_payload (p : smp) (len : N) (f : callback) : res :=
  match p with
  | PayloadNext b =>
      if 2 ^ 32 <=? len + 4 then Some (p, false) else
      match reserve b 1 (len + 4) with
      | None => Some (p, false)
      | Some b1 => match with_window b1 1 (prefix_cb len f) with
                   | None => None
                   | Some (b2, ok) => Some (HeaderNext b2, ok)
                   end
      end
  | _ => Some (p, false)
  end.

(** sec_packet.rs:207-223 [write_header] *)
Definition write_header (p : smp) (f : callback) : res :=
  match p with
  | HeaderNext b => match with_window b 0 f with
                    | None => None
                    | Some (b2, ok) => Some (FinalPayloadExt b2, ok)
                    end
  | _ => Some (p, false)
  end.

(** sec_packet.rs:230-251 [write_payload_extension]: consumes the packet: bytes, an error
    ([Some None]) or a panic ([None]). [finish] (225-227) is length 0. *)
Definition write_ext (p : smp) (len : N) (f : callback) : option (option (list N)) :=
  match p with
  | FinalPayloadExt b =>
      if len =? 0 then Some (Some (buf b)) else
      match reserve b 2 len with
      | None => Some None
      | Some b1 => match with_window b1 2 f with
                   | None => None
                   | Some (b2, true) => Some (Some (buf b2))
                   | Some (_, false) => Some None
                   end
      end
  | _ => Some None
  end.

(** sec_packet.rs:254-260 [message_len] *)
Definition message_len (p : smp) : N := default 0 (layout (smp_psb p) !! 1%nat).

(** sec_packet.rs:145-171: [extract_payload], [decompose_payload_raw]: payload and remaining bytes *)
Definition extract_payload (inp : list N) : option (list N * list N) :=
  if (length inp <? 4)%nat then None else
  let n := be_dec (take 4 inp) in
  let rest := drop 4 inp in
  if N.of_nat (length rest) <? n then None
  else Some (take (N.to_nat n) rest, drop (N.to_nat n) rest).
