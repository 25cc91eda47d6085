(** Model of packet protection: citadel_crypt/src/ratchets/mod.rs (layers),
    citadel_crypt/src/ratchets/entropy_bank.rs (nonce trailer), citadel_pqcrypto/src/lib.rs (packet ID
    and AEAD call). One direction between a sender and a receiver holding the same ratchet.
    A packet is modelled as header and payload already split (header_len is the header's length;
    [split_off] panics if it exceeds the packet, lib.rs:720). *)
From stdpp Require Import prelude functions.
From Verif Require Import Bytes Replay_Model.
Local Open Scope N_scope.

(** Result of a call: bytes, or an error. *)
Notation out := (option (list N)).

Section Protect.
(** [enc layer nonce aad msg]: AEAD encryption under the key of [layer]. *)
Variable enc : nat -> list N -> list N -> list N -> list N.
(** [nonce_of layer id]: entropy_bank.rs:82-98 *)
Variable nonce_of : nat -> N -> list N.
(** message_ratchet_count *)
Variable count : nat.

(** One AEAD encryption made by the sender. *)
Definition sealed : Type := nat * list N * list N * list N.

(** The two ends: sender's packet-ID containers and nonce counters per layer, the receiver's
    packet-ID containers, and the encryptions made so far. *)
Record state := mk_state { snd_ara : nat -> ara; snd_ctr : nat -> N; rcv_ara : nat -> ara; log : list sealed }.

(** Ideal AEAD: decryption succeeds exactly on ciphertexts the sender produced under the same key,
    nonce and associated data. *)
Fixpoint open (l : list sealed) (n : nat) (nonce aad ct : list N) : option (list N) :=
  match l with
  | [] => None
  | (n', nonce', aad', m) :: l' =>
      if bool_decide (n' = n /\ nonce' = nonce /\ aad' = aad /\ enc n nonce aad m = ct) then Some m
      else open l' n nonce aad ct
  end.

(** ratchets/mod.rs:170-194 [verify_level]; [max_level] is truncated to a u8. *)
Definition verify_level (lvl : option N) : option nat :=
  let l := default 0 lvl in
  if (count =? 0)%nat then None
  else if (N.of_nat (count - 1) mod 256) <? l then None
  else Some (N.to_nat l).

(** entropy_bank.rs:128-139, 186-196; pqcrypto lib.rs:713-738 *)
Definition protect_layer (h : list N) (sb : state * list N) (n : nat) : state * list N :=
  let '(s, body) := sb in
  let id := snd_ctr s n in
  let nonce := nonce_of n id in
  let '(pid, a') := get_next_pid (snd_ara s n) in
  let msg := body ++ be_enc 8 pid in
  (mk_state (<[n := a']> (snd_ara s)) (<[n := (id + 1) mod 2 ^ 64]> (snd_ctr s)) (rcv_ara s)
            ((n, nonce, h, msg) :: log s),
   enc n nonce h msg ++ be_enc 8 id).

(** ratchets/mod.rs:90-104 [protect_message_packet] *)
Definition protect (s : state) (lvl : option N) (h p : list N) : state * option (list N) :=
  match verify_level lvl with
  | None => (s, None)
  | Some idx => let '(s', body) := foldl (protect_layer h) (s, p) (seq 0 (S idx)) in (s', Some body)
  end.

(** entropy_bank.rs:142-154, 198-217; pqcrypto lib.rs:741-782 *)
Definition validate_layer (h : list N) (s : state) (body : list N) (n : nat) : state * option (list N) :=
  if (length body <? 8)%nat then (s, None)
  else
    let start := (length body - 8)%nat in
    match open (log s) n (nonce_of n (be_dec (drop start body))) h (take start body) with
    | None => (s, None)
    | Some m =>
        if (length m <? 8)%nat then (s, None)
        else
          let cut := (length m - 8)%nat in
          match on_pid_received (rcv_ara s n) (be_dec (drop cut m)) with
          | (true, a') => (mk_state (snd_ara s) (snd_ctr s) (<[n := a']> (rcv_ara s)) (log s), Some (take cut m))
          | (false, a') => (mk_state (snd_ara s) (snd_ctr s) (<[n := a']> (rcv_ara s)) (log s), None)
          end
    end.

(** ratchets/mod.rs:107-120, 197-210: layers from [idx] down to 0, stopping at the first error. *)
Definition validate_down (h : list N) (sb : state * option (list N)) (n : nat) : state * option (list N) :=
  match sb with
  | (s, Some body) => validate_layer h s body n
  | (s, None) => (s, None)
  end.
Definition validate (s : state) (lvl : option N) (h body : list N) : state * option (list N) :=
  match verify_level lvl with
  | None => (s, None)
  | Some idx => foldl (validate_down h) (s, Some body) (reverse (seq 0 (S idx)))
  end.

(** ratchets/mod.rs:61-72 [reset_ara] on one end; citadel_user/src/client_account.rs:215 and
    citadel_crypt/src/toolset.rs:263-266 call it on the static auxiliary ratchet at the start of each
    session. *)
Definition refresh_sender (s : state) : state := mk_state (fun n => reset (snd_ara s n)) (snd_ctr s) (rcv_ara s) (log s).
Definition refresh_receiver (s : state) : state := mk_state (snd_ara s) (snd_ctr s) (fun n => reset (rcv_ara s n)) (log s).

Definition init (ctr0 : nat -> N) : state := mk_state (fun _ => ara_default) ctr0 (fun _ => ara_default) [].

Inductive op :=
| Send (lvl : option N) (h p : list N)
| Arrive (lvl : option N) (h body : list N)
| RefreshSender | RefreshReceiver.

Definition step (s : state) (o : op) : state * out :=
  match o with
  | Send lvl h p => protect s lvl h p
  | Arrive lvl h body => validate s lvl h body
  | RefreshSender => (refresh_sender s, None)
  | RefreshReceiver => (refresh_receiver s, None)
  end.

Fixpoint run (s : state) (ops : list op) : state * list out :=
  match ops with
  | [] => (s, [])
  | o :: ops' => let '(s', x) := step s o in let '(s'', xs) := run s' ops' in (s'', x :: xs)
  end.
End Protect.
