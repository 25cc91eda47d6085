(** Model of citadel_crypt/src/scramble/crypt_splitter.rs: cutting a plaintext into encrypted waves
    of packets, the group description that is sent ahead, its validation, the reassembling receiver
    and the sender's acknowledgement bookkeeping.

    Bytes are [N]. Sizes carried in the group description are [N]; indices into buffers are [nat].
    Sizes are unbounded where the code computes them from the plaintext (the code truncates to u32,
    which differs only for groups of 4 GiB and more; streaming_crypt_scrambler.rs cuts files in
    groups of at most MAX_BYTES_PER_GROUP); [validate], whose input is chosen by the peer, has the
    checked arithmetic of the code. Timers, logging, header bytes and the shuffling inside a wave
    (the packets are put in a hash map keyed by sequence number) are left out. *)
From stdpp Require Import prelude gmap.
Local Open Scope N_scope.

(** crypt_splitter.rs:47, 49, 52 *)
Definition MAX_BYTES_PER_GROUP : N := 1024 * 1024 * 10.
Definition MAX_WAVEFORM_PACKET_SIZE : N := 480.
Definition AES_GCM_GHASH_OVERHEAD : N := 16.

(** crypt_splitter.rs:55-70. [mcl] is [max_ciphertext_len]. The security exponent is
    [min(level, Standard)] = 0, so the division is by 2^0. *)
Definition get_max_packet_size (mcl : N -> N) : N :=
  N.max ((mcl MAX_WAVEFORM_PACKET_SIZE + 8) / 2 ^ 0) AES_GCM_GHASH_OVERHEAD.

(** crypt_splitter.rs:478-499, without the ids, header size and transfer type, which are copied *)
Record cfg := mk_cfg {
  c_packets_needed : N; c_max_packets_per_wave : N; c_plaintext_length : N;
  c_max_payload_size : N; c_last_payload_size : N;
  c_full : N; c_partial : N; c_wave_count : N;
  c_max_plain : N; c_last_plain : N; c_packets_last : N; c_empty : bool }.

Definition div_ceil (a b : N) : N := if a mod b =? 0 then a / b else a / b + 1.

(** crypt_splitter.rs:506-554 [new_refresh] *)
Definition new_refresh (plen P full partial M lastplain K ctlast : N) (empty : bool) : cfg :=
  let packets_last := div_ceil ctlast P in
  let last_payload := if ctlast mod P =? 0 then P else ctlast mod P in
  mk_cfg (full * K + packets_last) K plen P last_payload full partial (full + partial)
         M lastplain packets_last empty.

(** crypt_splitter.rs:86-162 [generate_scrambler_metadata]; [K] is the multiport width *)
Definition wave_plain (mcl : N -> N) (K : N) : N :=
  let P := get_max_packet_size mcl in P * K - (P - MAX_WAVEFORM_PACKET_SIZE).
Definition wave_layout (plen M : N) : N * N * N :=
  if plen <? M then (0, 1, plen mod M)
  else if plen mod M =? 0 then (plen / M, 0, M)
  else (plen / M, 1, plen mod M).
Definition metadata (mcl : N -> N) (K plen : N) (empty : bool) : option cfg :=
  if plen =? 0 then None
  else
    let P := get_max_packet_size mcl in
    let M := wave_plain mcl K in
    let '(full, partial, lastplain) := wave_layout plen M in
    let ctlast := if partial =? 0 then 0 else 8 + mcl lastplain in
    Some (new_refresh plen P full partial M lastplain K ctlast empty).

(** slice::chunks *)
Definition nchunks (m len : nat) : nat := N.to_nat (div_ceil (N.of_nat len) (N.of_nat m)).
Definition chunks (m : nat) (l : list N) : list (list N) :=
  (fun i => take m (drop (i * m) l)) <$> seq 0 (nchunks m (length l)).

(** crypt_splitter.rs:327-381 [scramble_encrypt_wave]; [ct] is the wave's ciphertext *)
Definition wave_packets (K P : nat) (w : nat) (ct : list N) : list (nat * list N) :=
  imap (fun i payload => ((w * K + i)%nat, payload)) (chunks P ct).

(** crypt_splitter.rs:1242-1298 [encrypt_waves]: collected in a hash map, later entries replace
    earlier ones *)
Definition waves_packets (K P M : nat) (enc : nat -> list N -> list N) (pt : list N)
  : list (nat * list N) :=
  concat (imap (fun w p => wave_packets K P w (enc w p)) (chunks M pt)).
Definition collect (l : list (nat * list N)) : gmap nat (list N) :=
  foldl (fun m kv => <[kv.1 := kv.2]> m) ∅ l.

(** The [wave_id] of the packet vector, packet_vector.rs:90-111 *)
Definition wave_of (K seq : nat) : nat := (seq / K)%nat.

(** crypt_splitter.rs:228-324 [par_scramble_encrypt_group]. [rnd]: the random filler of an empty
    transfer; [revfs]: the local encryption of a remote-virtual-filesystem transfer; [hybrid]: the
    ML-KEM hybrid cipher, whose ciphertext length is not known in advance. *)
Definition group_plain (plain rnd : list N) (revfs : option (list N -> list N)) : list N :=
  let p := if bool_decide (plain = []) then rnd else plain in
  match revfs with Some f => f p | None => p end.
Definition last_wave_bytes (K : nat) (last : N) (pkts : gmap nat (list N)) : N :=
  N.of_nat (sum_list_with (fun kv : nat * list N =>
    if N.of_nat (wave_of K kv.1) =? last then length kv.2 else 0%nat) (map_to_list pkts)).
Definition send_group (mcl : N -> N) (K : N) (enc : nat -> list N -> list N)
    (plain rnd : list N) (revfs : option (list N -> list N)) (hybrid : bool)
  : option (cfg * gmap nat (list N)) :=
  let empty := bool_decide (plain = []) in
  let pt := group_plain plain rnd revfs in
  match metadata mcl K (N.of_nat (length pt)) empty with
  | None => None
  | Some c =>
      let pkts := collect (waves_packets (N.to_nat K) (N.to_nat (c_max_payload_size c))
                             (N.to_nat (c_max_plain c)) enc pt) in
      if negb hybrid && match revfs with None => true | Some _ => false end
      then Some (c, pkts)
      else Some (new_refresh (N.of_nat (length pt)) (c_max_payload_size c) (c_full c) (c_partial c)
                   (c_max_plain c) (c_last_plain c) (c_max_packets_per_wave c)
                   (last_wave_bytes (N.to_nat K) (c_wave_count c - 1) pkts) empty, pkts)
  end.

(** crypt_splitter.rs:384-415 [oneshot_unencrypted_group_unified], the description only *)
Definition oneshot_cfg (len : N) (empty : bool) : cfg :=
  mk_cfg 1 1 len len len 0 1 1 (len mod 2 ^ 32) (len mod 2 ^ 32) 1 empty.

(** crypt_splitter.rs:573-717 [validate]; [true] is Ok. *)
Definition ck (bound x : N) : option N := if x <? bound then Some x else None.
Definition u32 : N := 2 ^ 32.
Definition u64 : N := 2 ^ 64.
Definition MAX_RECEIVER_ALLOCATION : N := MAX_BYTES_PER_GROUP * 4.
Definition PER_WAVE_OVERHEAD_BYTES : N := 128.
Definition validate (c : cfg) : bool :=
  if MAX_BYTES_PER_GROUP <? c_plaintext_length c then false
  else if c_max_payload_size c =? 0 then false
  else if c_max_packets_per_wave c =? 0 then false
  else if (c_wave_count c =? 0) || (c_packets_needed c =? 0) then false
  else if 1 <? c_partial c then false
  else match ck u32 (c_full c + c_partial c) with
  | None => false
  | Some derived_waves =>
  if negb (derived_waves =? c_wave_count c) then false
  else match m ← ck u32 (c_full c * c_max_packets_per_wave c); ck u32 (m + c_packets_last c) with
  | None => false
  | Some derived_packets =>
  if negb (derived_packets =? c_packets_needed c) then false
  else if (c_packets_last c =? 0) || (c_max_packets_per_wave c <? c_packets_last c) then false
  else if c_max_payload_size c <? c_last_payload_size c then false
  else if c_max_plain c <? c_last_plain c then false
  else match f ← ck u64 (c_full c * c_max_plain c);
             p ← ck u64 (c_partial c * c_last_plain c); ck u64 (f + p) with
  | None => false
  | Some coverage =>
  if negb (coverage =? c_plaintext_length c) then false
  else match m ← ck u64 (c_full c * c_max_payload_size c); ck u64 (m * c_max_packets_per_wave c),
             m ← ck u64 ((c_packets_last c - 1) * c_max_payload_size c); ck u64 (m + c_last_payload_size c),
             ck u64 (c_wave_count c * PER_WAVE_OVERHEAD_BYTES) with
  | Some full_cipher, Some last_cipher, Some overhead =>
      match a ← ck u64 (c_plaintext_length c + full_cipher); b ← ck u64 (a + last_cipher);
            d ← ck u64 (b + (c_packets_needed c / 8 + 1)); e ← ck u64 (d + (c_wave_count c / 8 + 1));
            ck u64 (e + overhead) with
      | Some total => negb (MAX_RECEIVER_ALLOCATION <? total)
      | None => false
      end
  | _, _, _ => false
  end end end end.

(** ** The receiver, crypt_splitter.rs:443-468, 719-818 *)
Record wave_store := mk_ws { ws_recv : nat; ws_count : nat; ws_written : nat; ws_buf : list N }.
Record receiver := mk_rx {
  r_slab : list N; r_waves : gmap nat wave_store; r_seen : gset nat; r_needed : nat;
  r_written : nat; r_P : nat; r_last : nat; r_K : nat; r_M : nat; r_empty : bool }.

(** crypt_splitter.rs:748-799: one store per wave. [get_packet_count_in_wave] (556-562) is inlined.
    Saturating arithmetic is exact here (the description is validated first). *)
Definition new_store (c : cfg) (w : nat) : wave_store :=
  if N.of_nat w =? c_wave_count c - 1
  then mk_ws 0 (N.to_nat (c_packets_last c)) 0
         (replicate (N.to_nat ((c_packets_last c - 1) * c_max_payload_size c + c_last_payload_size c)) 0)
  else mk_ws 0 (N.to_nat (c_max_packets_per_wave c)) 0
         (replicate (N.to_nat (c_max_payload_size c * c_max_packets_per_wave c)) 0).
Definition new_receiver (c : cfg) : receiver :=
  mk_rx (replicate (N.to_nat (c_plaintext_length c)) 0)
        (list_to_map ((fun w => (w, new_store c w)) <$> seq 0 (N.to_nat (c_wave_count c))))
        ∅ (N.to_nat (c_packets_needed c)) 0
        (N.to_nat (c_max_payload_size c)) (N.to_nat (c_last_payload_size c))
        (N.to_nat (c_max_packets_per_wave c)) (N.to_nat (c_max_plain c)) (c_empty c).

(** crypt_splitter.rs:418-437; [SPanic] is a panic (slice index out of range, underflow) *)
Inductive status :=
| SComplete (w : nat) | SInvalid | SAlready | SInsert | SCorrupt | SWave (w : nat) | SPanic.

(** crypt_splitter.rs:1300-1303 [check_bounds] on the range [s..e] *)
Definition check_bounds (len s e : nat) : bool := negb ((s <=? len)%nat && (len <? e)%nat).

(** crypt_splitter.rs:1037-1057; the buffer's capacity is its length *)
Definition insertion_range (r : receiver) (seq len : nat) : option (nat * nat) :=
  if bool_decide (seq = r_needed r - 1)%nat
  then if (r_last r <=? len)%nat then Some ((len - r_last r)%nat, len) else None
  else let s := (r_P r * (seq mod r_K r))%nat in Some (s, (r_P r + s)%nat).

(** copy_from_slice into a sub-slice *)
Definition write_at (s : nat) (d buf : list N) : list N := take s buf ++ d ++ drop (s + length d) buf.

Definition set_seen (r : receiver) (s : gset nat) : receiver :=
  mk_rx (r_slab r) (r_waves r) s (r_needed r) (r_written r) (r_P r) (r_last r) (r_K r) (r_M r) (r_empty r).
Definition set_waves (r : receiver) (m : gmap nat wave_store) : receiver :=
  mk_rx (r_slab r) m (r_seen r) (r_needed r) (r_written r) (r_P r) (r_last r) (r_K r) (r_M r) (r_empty r).
Definition set_slab (r : receiver) (s : list N) (n : nat) : receiver :=
  mk_rx s (r_waves r) (r_seen r) (r_needed r) n (r_P r) (r_last r) (r_K r) (r_M r) (r_empty r).

(** crypt_splitter.rs:891-973: a wave got its last packet. [dec] is decrypt_in_place. *)
Definition finish_wave (dec : list N -> option (list N)) (r : receiver) (w : nat) (ws : wave_store)
  : status * receiver :=
  let r1 := set_waves r (delete w (r_waves r)) in
  match dec (take (ws_written ws) (ws_buf ws)) with
  | None => (SCorrupt, r1)
  | Some p =>
      let s := (w * r_M r)%nat in
      if (length (r_slab r) <? s + length p)%nat then (SCorrupt, r1)
      else
        let r2 := set_slab r1 (write_at s p (r_slab r1)) (r_written r1 + length p) in
        if bool_decide (r_waves r2 = ∅)
        then if (r_written r2 =? length (r_slab r2))%nat then (SComplete w, r2) else (SCorrupt, r2)
        else (SWave w, r2)
  end.

(** crypt_splitter.rs:821-985 [on_packet_received] *)
Definition on_packet (dec : list N -> option (list N)) (r : receiver) (seq w : nat) (pkt : list N)
  : status * receiver :=
  if negb (seq <? r_needed r)%nat then (SInvalid, r)
  else if bool_decide (seq ∈ r_seen r) then (SAlready, r)
  else
    let r0 := set_seen r ({[seq]} ∪ r_seen r) in
    match r_waves r0 !! w with
    | None => (SInvalid, r0)
    | Some ws =>
        let len := length (ws_buf ws) in
        match insertion_range r0 seq len with
        | None => (SPanic, r0)
        | Some (s, e) =>
            if negb (check_bounds len s e) then (SInvalid, r0)
            else if (len <? e)%nat then (SPanic, r0)
            else if negb (check_bounds (e - s) 0 (length pkt)) then (SInvalid, r0)
            else
              let ws' := mk_ws (S (ws_recv ws)) (ws_count ws) (ws_written ws + length pkt)
                               (write_at s pkt (ws_buf ws)) in
              if (ws_recv ws' =? ws_count ws')%nat
              then finish_wave dec r0 w ws'
              else (SInsert, set_waves r0 (<[w := ws']> (r_waves r0)))
        end
    end.

(** crypt_splitter.rs:1029-1035 *)
Definition finalize (r : receiver) : list N := if r_empty r then [] else r_slab r.

(** Feeding a list of packets [(seq, wave, payload)] *)
Fixpoint run (dec : list N -> option (list N)) (r : receiver) (l : list (nat * nat * list N))
  : list status * receiver :=
  match l with
  | [] => ([], r)
  | (s, w, p) :: l' =>
      let '(st, r') := on_packet dec r s w p in
      let '(sts, r'') := run dec r' l' in (st :: sts, r'')
  end.

(** ** The sender's bookkeeping, crypt_splitter.rs:1100-1197 *)
Record sender := mk_tx { t_ram : gmap nat (list N); t_received : N; t_sent : N; t_cfg : cfg }.
Definition new_sender (c : cfg) (m : gmap nat (list N)) : sender := mk_tx m 0 0 c.

(** crypt_splitter.rs:1152-1161; [None]: nothing left; [Some None]: the unwrap panics *)
Definition next_packet (t : sender) : option (option (list N)) * sender :=
  if t_sent t =? c_packets_needed (t_cfg t) then (None, t)
  else let k := N.to_nat (t_sent t) in
       match t_ram t !! k with
       | None => (Some None, t)
       | Some p => (Some (Some p), mk_tx (delete k (t_ram t)) (t_received t) (t_sent t + 1) (t_cfg t))
       end.

(** crypt_splitter.rs:1221-1229 *)
Definition packets_in_wave (c : cfg) (w : N) : N :=
  if w =? c_wave_count c - 1 then c_packets_last c else c_max_packets_per_wave c.

(** crypt_splitter.rs:1170-1197 [on_wave_tail_ack_received]; [true] means the group is finished *)
Definition on_ack (t : sender) (w : N) : bool * sender :=
  let c := t_cfg t in
  if c_wave_count c <=? w then (false, t)
  else
    let off := N.to_nat (c_max_packets_per_wave c * w) in
    let n := packets_in_wave c w in
    let ram := foldl (fun m i => delete i m) (t_ram t) (seq off (N.to_nat n)) in
    let rcv := t_received t + n in
    (rcv =? c_packets_needed c, mk_tx ram rcv (t_sent t) c).
Fixpoint run_acks (t : sender) (l : list N) : list bool * sender :=
  match l with
  | [] => ([], t)
  | w :: l' => let '(b, t') := on_ack t w in let '(bs, t'') := run_acks t' l' in (b :: bs, t'')
  end.
