(** C12, C17, C18. *)
From stdpp Require Import prelude.
From Verif Require Import Bytes Packet_Model Packet_Proofs.
Local Open Scope N_scope.

(** C12: with any port mapping the generator can produce, a position's coordinates decode to it ... *)
Theorem C12_coordinates_decode : forall ins outs seq,
  Permutation ins ports -> Permutation outs ports -> seq / 14 < 2 ^ 32 ->
  exists pv, generate_packet_vector seq (port_mapping ins outs) = Some pv /\
    generate_packet_coordinates_inv (pv_wave pv) (pv_local pv) (pv_remote pv) (port_mapping ins outs) = Some seq.
Proof. exact coordinates_decode. Qed.
Print Assumptions C12_coordinates_decode.

(** ... and whatever coordinates decode to a position are that position's coordinates. *)
Theorem C12_decode_sound : forall ins outs wave src loc seq,
  Permutation ins ports -> Permutation outs ports -> wave < 2 ^ 32 ->
  generate_packet_coordinates_inv wave src loc (port_mapping ins outs) = Some seq ->
  seq / 14 = wave /\ generate_packet_vector seq (port_mapping ins outs) = Some (mk_pv wave src loc seq).
Proof. exact coordinates_sound. Qed.
Print Assumptions C12_decode_sound.

Example C12_example :
  let ins := [3;1;0;2;4;5;6;7;8;9;10;11;12;13] in
  let outs := [13;12;11;10;9;8;7;6;5;4;3;2;1;0] in
  Permutation ins ports /\ Permutation outs ports /\
  generate_packet_vector 31 (port_mapping ins outs) = Some (mk_pv 2 2 10 31) /\
  generate_packet_coordinates_inv 2 2 10 (port_mapping ins outs) = Some 31 /\
  generate_packet_coordinates_inv 2 2 11 (port_mapping ins outs) = None.
Proof.
  cbn zeta. split; [|split].
  - apply NoDup_Permutation; [apply (bool_decide_unpack _); vm_compute; exact I|apply ports_NoDup|].
    intros x. unfold ports. rewrite !elem_of_cons, elem_of_nil. tauto.
  - apply NoDup_Permutation; [apply (bool_decide_unpack _); vm_compute; exact I|apply ports_NoDup|].
    intros x. unfold ports. rewrite !elem_of_cons, elem_of_nil. tauto.
  - vm_compute. done.
Qed.

(** The 32-bit limit is real: position 14*2^32 has the coordinates of position 0. *)
Example C12_wave_limit :
  generate_packet_vector (14 * 2 ^ 32) (port_mapping ports ports) = Some (mk_pv 0 0 0 (14 * 2 ^ 32)) /\
  generate_packet_coordinates_inv 0 0 0 (port_mapping ports ports) = Some 0.
Proof. vm_compute. done. Qed.

(** C17 *)
Theorem C17_header_round_trip : forall h rest, header_ok h ->
  length (header_bytes h) = 64%nat /\ bytes_ok (header_bytes h) /\
  header_parse (header_bytes h ++ rest) = Some (h, rest).
Proof. intros h rest H. split; [exact (header_bytes_length h)|split; [exact (header_bytes_ok h)|exact (header_round_trip h rest H)]]. Qed.
Print Assumptions C17_header_round_trip.

Theorem C17_header_reparse : forall l h rest,
  bytes_ok l -> header_parse l = Some (h, rest) -> header_bytes h ++ rest = l /\ header_ok h.
Proof. exact header_reparse. Qed.
Print Assumptions C17_header_reparse.

Theorem C17_short_refused : forall l, (length l < 64)%nat <-> header_parse l = None.
Proof. exact header_short. Qed.
Print Assumptions C17_short_refused.

Example C17_example :
  let h := mk_header 1 2 3 4 5 6 7 258 9 10 (2 ^ 64 - 1) 12 in
  header_ok h /\ drop 32 (header_bytes h) = [0;0;1;2; 0;0;0;0;0;0;0;9; 0;0;0;10; 255;255;255;255;255;255;255;255; 0;0;0;0;0;0;0;12] /\
  header_parse (header_bytes h ++ [77]) = Some (h, [77]).
Proof. vm_compute. repeat split; done. Qed.

(** C18: for every compatible choice of settings, every key, every filler of the first packet and
    every run (any interleaving of sends and reads in both directions), no error is raised and each
    side has received exactly a prefix of what the other sent (all of it once the link is empty).
    With obfuscation on, packets shorter than a header are not protocol packets and are dropped. *)
Theorem C18_obfuscation_transparent : forall cs ss rand filler key,
  compatible cs ss rand key -> (length filler < 48)%nat -> forall ops s,
  conn_run (conn_init cs ss rand filler) ops s ->
  let off := match cs with ObfDisabled => true | _ => false end in
  c_failed s = false /\
  c_up_got s `prefix_of` deliverable off (c_up_sent s) /\
  c_down_got s `prefix_of` deliverable off (c_down_sent s) /\
  (c_up s = [] -> c_up_got s = deliverable off (c_up_sent s)) /\
  (c_down s = [] -> c_down_got s = deliverable off (c_down_sent s)).
Proof. exact obfuscation_transparent. Qed.
Print Assumptions C18_obfuscation_transparent.

(** Only the header is touched, and the packet length never changes. *)
Theorem C18_payload_untouched : forall k inverse p,
  length (apply_cipher k inverse p) = length p /\ drop 64 (apply_cipher k inverse p) = drop 64 p.
Proof. intros. split; [apply apply_cipher_length|apply apply_cipher_payload]. Qed.
Print Assumptions C18_payload_untouched.

Definition ex_packet : list N := repeat 200 64 ++ [1;2;3].
Example C18_example :
  let s := foldl conn_step (conn_init ObfEnabled ObfDisabled (2 ^ 127 + 5) [9;9;9])
             [ClientSends ex_packet; ServerReads; ServerSends ex_packet; ClientSends [1]; ServerReads; ServerReads; ClientReads] in
  compatible ObfEnabled ObfDisabled (2 ^ 127 + 5) (Some (2 ^ 127 + 5)) /\
  c_up_got s = [ex_packet] /\ c_down_got s = [ex_packet] /\
  (prepare_outbound (c_client s) ex_packet).2 <> ex_packet.
Proof. split; [|vm_compute; done]. constructor; [done|]. split; vm_compute; done. Qed.

(** The side condition on the server is needed: a server that speaks before having read the
    client's first packet sends a plain header, which the client garbles. *)
Example C18_early_server_packet :
  let s := foldl conn_step (conn_init ObfEnabled ObfEnabled 77 []) [ServerSends ex_packet; ClientReads] in
  c_down_sent s = [ex_packet] /\ c_down s = [] /\ c_down_got s <> [ex_packet].
Proof. vm_compute. done. Qed.
