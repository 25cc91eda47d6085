(** What is assumed of the primitives, and what "the two ends match" means. *)
From stdpp Require Import prelude.
From Verif Require Import Types_Model KeySched_Model.
Local Open Scope N_scope.

(** Correctness only (no secrecy): decapsulation inverts encapsulation, verification accepts
    signatures, decryption under the same key inverts encryption, serialisation is invertible. *)
Record prims_ok (P : prims) : Prop := {
  kem_ok : forall sk coins, kem_decap P sk (fst (kem_encap P (kem_pk P sk) coins)) = snd (kem_encap P (kem_pk P sk) coins);
  sg_ok : forall sk m, sg_verify P (sg_pk P sk) m (sg_sign P sk m) = true;
  ae_ok : forall alg k n a m, ad P alg k n a (ae P alg k n a m) = Some m;
  hy_ok : forall sk ssk n a m, hy_open P sk (sg_pk P ssk) a (hy_seal P (kem_pk P sk) ssk n a m) = Some m;
  eb_ok : forall b, eb_de P (eb_ser P b) = Some b
}.

(** What one container encrypts the other decrypts, for every nonce, header and message. *)
Definition talks (P : prims) (c1 c2 : pqc) : Prop :=
  forall nonce aad msg, exists ct, pq_encrypt P c1 nonce aad msg = Some ct /\ pq_decrypt P c2 nonce aad ct = Some msg.

Definition same_bank (b1 b2 : ebank) : Prop := eb_version b1 = eb_version b2 /\ eb_bytes b1 = eb_bytes b2.

Definition layers_match (P : prims) (l1 l2 : ebank * pqc) : Prop :=
  same_bank (fst l1) (fst l2) /\ talks P (snd l1) (snd l2) /\ talks P (snd l2) (snd l1) /\
  exists ch, pq_chain (snd l1) = Some ch /\ pq_chain (snd l2) = Some ch.

(** The two ends' ratchets work together at every layer, the scramble layer included (for which the
    chaining value is not used further, but agrees too). *)
Definition ends_match (P : prims) (r1 r2 : ratchet) : Prop :=
  Forall2 (layers_match P) (rt_layers r1) (rt_layers r2) /\ layers_match P (rt_scr r1) (rt_scr r2).

(** For C07: the key protecting the responder's answer, as used by the cipher. *)
Definition cut (alg : enc_alg) (k : list N) : list N := match alg with Ascon80pq => take 20 k | _ => k end.

(** No hash collision on the inputs at hand (an injective hash on all strings does not exist; this
    is what is needed of SHA3 on the two inputs of one derivation). [prev]: chaining state of the
    layer, [ss]: shared secret, [a], [b]: concatenated pre-shared keys of the two ends. *)
Definition no_collision (P : prims) (alg : enc_alg) (prev : option rchain) (ss a b : list N) : Prop :=
  match prev with
  | None =>
      ss ++ a <> ss ++ b -> cut alg (drop 32 (sha512 P (ss ++ a))) <> cut alg (drop 32 (sha512 P (ss ++ b)))
  | Some c =>
      let x := ch_chain c ++ ss ++ a in let y := ch_chain c ++ ss ++ b in
      (x <> y -> drop 32 (sha512 P x) <> drop 32 (sha512 P y)) /\
      (let u := zip_with N.lxor (ch_bob c) (drop 32 (sha512 P x)) in
       let v := zip_with N.lxor (ch_bob c) (drop 32 (sha512 P y)) in
       u <> v -> cut alg (sha256 P u) <> cut alg (sha256 P v))
  end.

(** Digest sizes, and: a ciphertext does not open under another key. *)
Record prims_strict (P : prims) : Prop := {
  len256 : forall x, length (sha256 P x) = 32%nat;
  len512 : forall x, length (sha512 P x) = 64%nat;
  ae_strict : forall alg k k' n a m, k <> k' -> ad P alg k' n a (ae P alg k n a m) = None
}.

(** citadel_types/src/crypto/mod.rs:737-751 [PreSharedKey::add_password]: the list an end configures
    from its passwords. *)
Definition psk_of (P : prims) (passwords : list (list N)) : list (list N) := map (sha256 P) passwords.

(** For C53: a public key (or ciphertext) that comes with a signature which does not verify. *)
Definition badly_signed_a (P : prims) (t : a2b) : Prop :=
  exists apk s, ab_sig t = Some (apk, s) /\ sg_verify P apk (ab_pk t) s = false.
Definition badly_signed_b (P : prims) (t : b2a) : Prop :=
  exists bpk s, ba_sig t = Some (bpk, s) /\ sg_verify P bpk (ba_ct t) s = false.
