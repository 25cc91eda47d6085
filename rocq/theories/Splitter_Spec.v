(** What the receiver of a scrambled group should report, in terms of which packets have arrived. *)
From stdpp Require Import prelude gmap.
From Verif Require Import Splitter_Model.
Local Open Scope N_scope.

(** [sent]: sequence numbers the sender emitted; [before]: those that arrived earlier; [K]: packets
    per wave. The group is complete at the arrival of the last missing packet, a wave likewise. *)
Definition spec_status (K : nat) (sent before : gset nat) (s : nat) : status :=
  if bool_decide (s ∈ before) then SAlready
  else if bool_decide (sent ⊆ {[s]} ∪ before) then SComplete (s / K)
  else if bool_decide (set_Forall (fun x => (x / K)%nat = (s / K)%nat -> x ∈ ({[s]} ∪ before : gset nat)) sent)
  then SWave (s / K)
  else SInsert.

Fixpoint spec_statuses (K : nat) (sent before : gset nat) (l : list nat) : list status :=
  match l with
  | [] => []
  | s :: l' => spec_status K sent before s :: spec_statuses K sent ({[s]} ∪ before) l'
  end.

(** The arrivals of a list of sequence numbers of the packets [pkts], with the coordinates the
    sender gave them *)
Definition arrivals (K : nat) (pkts : gmap nat (list N)) (l : list nat) : list (nat * nat * list N) :=
  (fun s => (s, s / K, default [] (pkts !! s))%nat) <$> l.

(** Lengths of the real ciphertexts: each full wave fills exactly [K] packets and the last one at
    most [K]. *)
Definition wave_fits (K P len : nat) : Prop := ((K - 1) * P < len <= K * P)%nat.

(** Conditions on the cipher under which the layout computed by the sender is right.
    [P]: payload size, [M]: plaintext bytes per wave. *)
Record cipher_ok (mcl : N -> N) (K : N) (enc : nat -> list N -> list N)
    (dec : list N -> option (list N)) (exact : bool) : Prop := {
  ok_K : 0 < K;
  ok_dec : forall w p, dec (enc w p) = Some p;
  ok_full : forall w p, length p = N.to_nat (wave_plain mcl K) ->
              wave_fits (N.to_nat K) (N.to_nat (get_max_packet_size mcl)) (length (enc w p));
  ok_last : forall w p, (0 < length p < N.to_nat (wave_plain mcl K))%nat ->
              (0 < length (enc w p) <= N.to_nat K * N.to_nat (get_max_packet_size mcl))%nat;
  ok_exact : exact = true -> forall w p, N.of_nat (length (enc w p)) = 8 + mcl (N.of_nat (length p)) }.

(** Whether the sender keeps the description computed beforehand *)
Definition exact_layout (revfs : option (list N -> list N)) (hybrid : bool) : bool :=
  negb hybrid && match revfs with None => true | Some _ => false end.

(** The three authenticated-encryption ciphers: a 16-byte tag, an 8-byte nonce counter. *)
Definition sym_mcl (n : N) : N := n + 16.
Definition DRILL_RANGE : N := 14.
Definition sym_ok (enc : nat -> list N -> list N) (dec : list N -> option (list N)) : Prop :=
  (forall w p, dec (enc w p) = Some p) /\ (forall w p, length (enc w p) = (length p + 24)%nat).

(** Acknowledging waves: the group is finished by the acknowledgement that completes the set. *)
Definition spec_ack (waves : N) (acked : gset N) (w : N) : bool :=
  (w <? waves) && bool_decide (set_Forall (fun x => x ∈ ({[w]} ∪ acked : gset N))
                                (list_to_set (N.of_nat <$> seq 0 (N.to_nat waves)) : gset N)).
Fixpoint spec_acks (waves : N) (acked : gset N) (l : list N) : list bool :=
  match l with
  | [] => []
  | w :: l' => spec_ack waves acked w :: spec_acks waves ({[w]} ∪ acked) l'
  end.

(** The acknowledgements a receiver sends: one per completed wave (inbound_transfer.rs:465-497). *)
Definition ack_of (s : status) : option N :=
  match s with SComplete w | SWave w => Some (N.of_nat w) | _ => None end.

(** The same acknowledgements, with whether the receiver had just reported the group complete *)
Definition fin_of (s : status) : option bool :=
  match s with SComplete _ => Some true | SWave _ => Some false | _ => None end.

(** Memory taken by a receiver's buffers. *)
Definition receiver_bytes (r : receiver) : N :=
  N.of_nat (length (r_slab r)) + N.of_nat (sum_list_with (fun kv => length (ws_buf kv.2)) (map_to_list (r_waves r))).

(** A packet as the protocol layer hands it over (inbound_transfer.rs:322-343): the wave number and
    the position decoded from the ports, both chosen by the peer; [K] is the local port-map width. *)
Definition decoded (K : nat) (wave idx : nat) (p : list N) : nat * nat * list N := ((wave * K + idx)%nat, wave, p).

(** What a relay that cannot decrypt may do: deliver the payloads of wave 0 and 1 under each other's
    coordinates. *)
Definition swap01 (w : nat) : nat := match w with 0%nat => 1%nat | 1%nat => 0%nat | _ => w end.
Definition swapped (K : nat) (pkts : gmap nat (list N)) (l : list nat) : list (nat * nat * list N) :=
  (fun s => (s, s / K, default [] (pkts !! (swap01 (s / K) * K + s mod K)))%nat) <$> l.
