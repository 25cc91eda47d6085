(** Model of the per-key nonce source: citadel_crypt/src/ratchets/entropy_bank.rs. *)
From stdpp Require Import prelude.
From Verif Require Import Bytes.
Local Open Scope N_scope.

Section Nonce.
(** entropy_bank.rs:82-98 [get_nonce]: BLAKE3 keyed with the bank's entropy, of the 8-byte id; the
    cipher uses the first [nonce_len] bytes. A parameter: [prf entropy id]. *)
Variable prf : list N -> N -> list N.
Variable nonce_len : nat.

(** entropy_bank.rs:332-339: the fields used here. *)
Record bank := mk_bank { bk_entropy : list N; bk_counter : N }.

(** entropy_bank.rs:358-361 [random_base]; [r] is the random u64 drawn. *)
Definition random_base (r : N) : N := N.shiftr r 1.

(** entropy_bank.rs:365-367 [next_id]: fetch_add wraps at 2^64. *)
Definition next_id (b : bank) : N * bank :=
  (bk_counter b, mk_bank (bk_entropy b) ((bk_counter b + 1) mod 2 ^ 64)).

(** entropy_bank.rs:82-98 plus the cipher's truncation (citadel_pqcrypto/src/encryption.rs:348-349) *)
Definition get_nonce (b : bank) (id : N) : list N := take nonce_len (prf (bk_entropy b) id).

(** entropy_bank.rs:186-196, 219-230 [wrap_with_unique_nonce_enx(_vec)]: the nonce used and the
    buffer left by a cipher [f]. An error of [f] loses the id. *)
Definition wrap_enx (b : bank) (f : list N -> list N -> option (list N)) (buf : list N) : option (list N) * list N * bank :=
  let '(id, b') := next_id b in
  let nonce := get_nonce b id in
  (match f buf nonce with Some c => Some (c ++ be_enc 8 id) | None => None end, nonce, b').

(** entropy_bank.rs:198-217, 232-252 [wrap_with_unique_nonce_dex(_vec)] *)
Definition wrap_dex (b : bank) (g : list N -> list N -> option (list N)) (buf : list N) : option (list N) :=
  let start := (length buf - 8)%nat in
  let trailer := drop start buf in
  if negb (length trailer =? 8)%nat then None
  else g (take start buf) (get_nonce b (be_dec trailer)).

(** entropy_bank.rs:369-391: a fresh or a deserialised bank draws a new base [r]; the persisted
    counter is discarded. *)
Definition fresh (entropy : list N) (r : N) : bank := mk_bank entropy (random_base r).
Definition restore (b : bank) (r : N) : bank := mk_bank (bk_entropy b) (random_base r).

(** [k] uses of one bank: the ids it hands out. *)
Fixpoint ids (k : nat) (b : bank) : list N :=
  match k with O => [] | S k' => let '(i, b') := next_id b in i :: ids k' b' end.
End Nonce.
