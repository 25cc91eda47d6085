(** Model of citadel_proto/src/proto/packet.rs (header, obfuscator) and
    citadel_crypt/src/packet_vector.rs. Bytes are [N]s below 256. *)
From stdpp Require Import prelude.
From Verif Require Import Bytes.
Local Open Scope N_scope.

(** ** packet_vector.rs *)

(** misc.rs:60-79 [create_port_mapping]: two shuffles of 0..14 zipped; the shuffles are parameters. *)
Definition DRILL_RANGE : N := 14.
Definition port_mapping (ins outs : list N) : list (N * N) := zip ins outs.

(** packet_vector.rs:61-77, without the group id, which is only copied *)
Record packet_vector := mk_pv { pv_wave : N; pv_local : N; pv_remote : N; pv_seq : N }.

(** packet_vector.rs:90-111; [None] is the panic of unwrap. *)
Definition generate_packet_vector (seq : N) (m : list (N * N)) : option packet_vector :=
  let w := N.of_nat (length m) in
  match m !! N.to_nat (seq mod w) with
  | Some (l, r) => Some (mk_pv ((seq / w) mod 2 ^ 32) l r seq)
  | None => None
  end.

(** packet_vector.rs:126-141 *)
Fixpoint find_ports (m : list (N * N)) (src loc : N) (idx : N) : option N :=
  match m with
  | [] => None
  | (i, o) :: m' => if (i =? src) && (o =? loc) then Some idx else find_ports m' src loc (idx + 1)
  end.
Definition generate_packet_coordinates_inv (wave src loc : N) (m : list (N * N)) : option N :=
  match find_ports m src loc 0 with
  | Some idx => Some (wave * N.of_nat (length m) + idx)
  | None => None
  end.

(** ** HdpHeader, packet.rs:185-209. Field values are unsigned; the signed [timestamp] is kept as
    its 64-bit two's complement pattern. *)
Record header := mk_header {
  h_cmd_primary : N; h_cmd_aux : N; h_algorithm : N; h_security_level : N;
  h_protocol_version : N; h_context_info : N; h_group : N; h_wave_id : N;
  h_session_cid : N; h_entropy_bank_version : N; h_timestamp : N; h_target_cid : N }.

Definition HDP_HEADER_BYTE_LEN : nat := 64.

(** [as_bytes] of the #[repr(C)] unaligned struct: fields in order, big endian *)
Definition header_bytes (h : header) : list N :=
  be_enc 1 (h_cmd_primary h) ++ be_enc 1 (h_cmd_aux h) ++ be_enc 1 (h_algorithm h) ++ be_enc 1 (h_security_level h) ++
  be_enc 4 (h_protocol_version h) ++ be_enc 16 (h_context_info h) ++ be_enc 8 (h_group h) ++ be_enc 4 (h_wave_id h) ++
  be_enc 8 (h_session_cid h) ++ be_enc 4 (h_entropy_bank_version h) ++ be_enc 8 (h_timestamp h) ++ be_enc 8 (h_target_cid h).

Definition field (l : list N) (off len : nat) : N := be_dec (take len (drop off l)).

(** packet.rs:253-255 [parse]: zerocopy's new_from_prefix *)
Definition header_parse (l : list N) : option (header * list N) :=
  if bool_decide (length l < HDP_HEADER_BYTE_LEN)%nat then None
  else Some (mk_header (field l 0 1) (field l 1 1) (field l 2 1) (field l 3 1)
               (field l 4 4) (field l 8 16) (field l 24 8) (field l 32 4)
               (field l 36 8) (field l 44 4) (field l 48 8) (field l 56 8),
             drop HDP_HEADER_BYTE_LEN l).

(** ** HeaderObfuscator, packet.rs:310-316. [first_packet] lives in the connection model. *)
Record obf := mk_obf {
  o_key : option N; o_expected : option N; o_disabled : bool; o_client_intends_disable : bool }.

Definition DISABLED_KEY : N := 2 ^ 128 - 1.

(** packet.rs:514-520 *)
Definition cipher_inner (a b c : N) (inverse : bool) : N :=
  if inverse then (N.lxor c b + (256 - a)) mod 256 else N.lxor ((c + a) mod 256) b.

(** packet.rs:500-511 *)
Definition key_pair (k : N) (i : nat) : N * N :=
  let bs := be_enc 16 k in
  (default 0 (bs !! (i mod 8)%nat), default 0 (bs !! (8 + i mod 8)%nat)).
Definition apply_cipher (k : N) (inverse : bool) (p : list N) : list N :=
  imap (fun i c => if (i <? HDP_HEADER_BYTE_LEN)%nat
                   then cipher_inner (key_pair k i).1 (key_pair k i).2 c inverse else c) p.

(** Result of [on_packet_received], packet.rs:331-375: [RErr], [RIgnored] = Ok(false), [RPass p] = Ok(true). *)
Inductive obf_result := RErr | RIgnored | RPass (p : list N).

Definition on_packet_received (o : obf) (p : list N) : obf * obf_result :=
  if o_disabled o then (o, RPass p)
  else match o_key o with
  | Some k =>
      if (length p <? HDP_HEADER_BYTE_LEN)%nat then (o, RIgnored)
      else (o, RPass (apply_cipher k true p))
  | None =>
      if (16 <=? length p)%nat then
        let key := be_dec (take 16 p) in
        if key =? 0 then (o, RErr)
        else if match o_expected o with Some e => negb (key =? e) | None => false end then (o, RErr)
        else if key =? DISABLED_KEY then (mk_obf (o_key o) (o_expected o) true true, RIgnored)
        else (mk_obf (Some key) (o_expected o) (o_disabled o) (o_client_intends_disable o), RIgnored)
      else (o, RIgnored)
  end.

(** packet.rs:381-397 [obfuscate_header] / 400-403 [prepare_outbound] *)
Definition prepare_outbound (o : obf) (p : list N) : obf * list N :=
  if o_client_intends_disable o && o_disabled o then (o, p)
  else match o_key o with
  | Some k =>
      if (HDP_HEADER_BYTE_LEN <=? length p)%nat then
        (mk_obf (o_key o) (o_expected o) (if o_client_intends_disable o then true else o_disabled o) (o_client_intends_disable o),
         apply_cipher k false p)
      else (o, p)
  | None => (o, p)
  end.

(** Settings, citadel_types/src/crypto/mod.rs:610-618. The random/pre-shared u128 is hashed by
    [hash_u128] (packet.rs:480-486); the model takes the hashed key. *)
Inductive obf_settings := ObfDisabled | ObfEnabled | ObfPsk (hashed : N).

(** packet.rs:406-444; [rand] is the hashed random key, [filler] the random tail of the first packet *)
Definition new_client (s : obf_settings) (rand : N) (filler : list N) : obf * list N :=
  match s with
  | ObfDisabled => (mk_obf None None true false, be_enc 16 DISABLED_KEY)
  | ObfEnabled => (mk_obf (Some rand) None false false, be_enc 16 rand ++ filler)
  | ObfPsk k => (mk_obf (Some k) None false false, be_enc 16 k ++ filler)
  end.

(** packet.rs:446-464 *)
Definition new_server (s : obf_settings) : obf :=
  match s with
  | ObfEnabled | ObfDisabled => mk_obf None None false false
  | ObfPsk k => mk_obf (Some k) (Some k) false false
  end.

(** ** A connection: two endpoints and two FIFO links (a TCP/QUIC/TLS stream with length framing,
    which is not modelled). The client's first packet is in flight initially. *)
Record conn := mk_conn {
  c_client : obf; c_server : obf;
  c_up : list (list N); c_down : list (list N);
  c_up_sent : list (list N); c_up_got : list (list N);
  c_down_sent : list (list N); c_down_got : list (list N);
  c_started : bool; c_failed : bool }.

Inductive conn_op := ClientSends (p : list N) | ServerSends (p : list N) | ServerReads | ClientReads.

Definition conn_init (cs ss : obf_settings) (rand : N) (filler : list N) : conn :=
  let '(c, first) := new_client cs rand filler in
  mk_conn c (new_server ss) [first] [] [] [] [] [] false false.

Definition conn_step (s : conn) (op : conn_op) : conn :=
  match op with
  | ClientSends p =>
      let '(c', q) := prepare_outbound (c_client s) p in
      mk_conn c' (c_server s) (c_up s ++ [q]) (c_down s) (c_up_sent s ++ [p]) (c_up_got s)
        (c_down_sent s) (c_down_got s) (c_started s) (c_failed s)
  | ServerSends p =>
      let '(v', q) := prepare_outbound (c_server s) p in
      mk_conn (c_client s) v' (c_up s) (c_down s ++ [q]) (c_up_sent s) (c_up_got s)
        (c_down_sent s ++ [p]) (c_down_got s) (c_started s) (c_failed s)
  | ServerReads =>
      match c_up s with
      | [] => s
      | q :: up =>
          let '(v', r) := on_packet_received (c_server s) q in
          mk_conn (c_client s) v' up (c_down s) (c_up_sent s)
            (match r with RPass p => c_up_got s ++ [p] | _ => c_up_got s end)
            (c_down_sent s) (c_down_got s) true (c_failed s || match r with RErr => true | _ => false end)
      end
  | ClientReads =>
      match c_down s with
      | [] => s
      | q :: down =>
          let '(c', r) := on_packet_received (c_client s) q in
          mk_conn c' (c_server s) (c_up s) down (c_up_sent s) (c_up_got s) (c_down_sent s)
            (match r with RPass p => c_down_got s ++ [p] | _ => c_down_got s end)
            (c_started s) (c_failed s || match r with RErr => true | _ => false end)
      end
  end.
