(** Model of the key exchange that creates and renews a session's ratchets:
    citadel_pqcrypto/src/lib.rs, citadel_pqcrypto/src/export.rs,
    citadel_crypt/src/ratchets/stacked/ratchet.rs.
    The primitives (KEM, signatures, hashes, AEAD, PKE) are a record of functions passed around;
    what is assumed of them is written down in KeySched_Spec.v. Randomness is an argument. *)
From stdpp Require Import prelude.
From Verif Require Import Bytes Types_Model.
Local Open Scope N_scope.

Notation bstr := (list N) (only parsing).

(** citadel_crypt/src/ratchets/entropy_bank.rs:332-339, the parts that are transferred *)
Record ebank := mk_eb { eb_cid : N; eb_version : N; eb_bytes : bstr }.

(** The primitives. [kem_*]: kyber_pke::kem_keypair/encapsulate/decapsulate (a key pair is given by
    its secret key). [sg_*]: functions::signature_keypair/sign/verify (lib.rs:106-292).
    [sha256], [sha512]: SHA3. [ae], [ad]: the three symmetric AEADs, key, nonce, aad.
    [hy_seal], [hy_open]: what KyberModule adds around the symmetric ciphertext: scrambling, PKE of
    the scramble dictionary to a public key, checksum and signature
    (citadel_pqcrypto/src/encryption.rs:166-240, 335-420). [eb_ser], [eb_de]: bincode of the bank. *)
Record prims := mk_prims {
  kem_pk : bstr -> bstr;
  kem_encap : bstr -> bstr -> bstr * bstr;
  kem_decap : bstr -> bstr -> bstr;
  sg_pk : bstr -> bstr;
  sg_sign : bstr -> bstr -> bstr;
  sg_verify : bstr -> bstr -> bstr -> bool;
  sha256 : bstr -> bstr;
  sha512 : bstr -> bstr;
  ae : enc_alg -> bstr -> bstr -> bstr -> bstr -> bstr;
  ad : enc_alg -> bstr -> bstr -> bstr -> bstr -> option bstr;
  hy_seal : bstr -> bstr -> bstr -> bstr -> bstr -> bstr;
  hy_open : bstr -> bstr -> bstr -> bstr -> option bstr;
  eb_ser : ebank -> bstr;
  eb_de : bstr -> option ebank
}.

Inductive pq_node := Alice | Bob.

(** lib.rs:868-882 [PostQuantumMetaKex] *)
Record kexd := mk_kex { kx_remote : option bstr; kx_sk : bstr; kx_ct : option bstr; kx_ss : option bstr }.
(** lib.rs:884-891 [PostQuantumMetaSig] *)
Record sigd := mk_sig { sg_sk : bstr; sg_remote : option bstr }.
(** constructor_opts.rs:105-111 [RecursiveChain]; the [first] flag is written and never read. *)
Record rchain := mk_chain { ch_chain : bstr; ch_alice : bstr; ch_bob : bstr }.

(** export.rs:145-214: an AEAD module: symmetric under one key, or KyberModule *)
Inductive aead_module :=
  | MSym (alg : enc_alg) (key : bstr)
  | MHyb (local remote : bstr) (kx : kexd) (sg : sigd).

(** lib.rs:297-306, 321-330: container; [key_store] reduced to the two modules *)
Record pqc := mk_pqc {
  pq_params : crypto_params; pq_kex : kexd; pq_sig : option sigd; pq_chain : option rchain;
  pq_keys : option (option aead_module * option aead_module); pq_side : pq_node
}.

(** constructor_opts.rs:50-54; [cryptography] always present (callers fill the default) *)
Record copts := mk_opts { co_params : crypto_params; co_chain : option rchain }.

Definition xorb_str (a b : bstr) : bstr := zip_with N.lxor a b.

(** export.rs:145-255 [keys_to_aead_store], [generate_symmetric_aes_module]; KyberModule unwraps the
    signature keys (a panic if absent: [None]). *)
Definition keys_to_aead_store (alice bob : bstr) (kx : kexd) (p : crypto_params) (sg : option sigd)
    (side : pq_node) : option (option aead_module * option aead_module) :=
  match cp_enc p with
  | AES_GCM_256 => Some (Some (MSym AES_GCM_256 alice), Some (MSym AES_GCM_256 bob))
  | ChaCha20Poly_1305 => Some (Some (MSym ChaCha20Poly_1305 alice), Some (MSym ChaCha20Poly_1305 bob))
  | Ascon80pq => Some (Some (MSym Ascon80pq (take 20 alice)), Some (MSym Ascon80pq (take 20 bob)))
  | MlKemHybrid =>
      match sg with
      | None => None
      | Some s => match side with
                  | Alice => Some (Some (MHyb alice bob kx s), None)
                  | Bob => Some (None, Some (MHyb bob alice kx s))
                  end
      end
  end.

(** Parameters sent each way: lib.rs:1129-1192 *)
Record a2b := mk_a2b { ab_pk : bstr; ab_sig : option (bstr * bstr) (* signature key, signature *) }.
Record b2a := mk_b2a { ba_ct : bstr; ba_pk : bstr; ba_sig : option (bstr * bstr) }.

Section Sched.
Context (P : prims).

(** lib.rs:407-538 [generate_recursive_keystore]: chain, alice key, bob key *)
Definition derive_keys (prev : option rchain) (ss : bstr) (psks : list bstr) : rchain :=
  match prev with
  | Some c =>
      let temp := sha512 P (ch_chain c ++ ss ++ concat psks) in
      let a := sha256 P (xorb_str (ch_alice c) (take 32 temp)) in
      let b := sha256 P (xorb_str (ch_bob c) (drop 32 temp)) in
      mk_chain (sha256 P (xorb_str a b)) a b
  | None =>
      let temp := sha512 P (ss ++ concat psks) in
      mk_chain (sha256 P (xorb_str (take 32 temp) (drop 32 temp))) (take 32 temp) (drop 32 temp)
  end.

(** lib.rs:941-981 with the key pairs of 131-292 [PostQuantumMeta::new_alice]; 337-354 [PostQuantumContainer::new_alice] *)
Definition pq_new_alice (o : copts) (sk ssk : bstr) : option pqc :=
  if negb (validate_crypto_params (co_params o)) then None else
  Some (mk_pqc (co_params o) (mk_kex None sk None None)
          (match cp_sig (co_params o) with SigNone => None | _ => Some (mk_sig ssk None) end)
          (co_chain o) None Alice).

(** lib.rs:1129-1160 *)
Definition pq_a2b (c : pqc) : a2b :=
  let pk := kem_pk P (kx_sk (pq_kex c)) in
  mk_a2b pk (match pq_sig c with
             | None => None
             | Some s => Some (sg_pk P (sg_sk s), sg_sign P (sg_sk s) pk)
             end).

(** lib.rs:366-404 [new_bob] with 983-1075 *)
Definition pq_new_bob (o : copts) (t : a2b) (psks : list bstr) (sk ssk coins : bstr) : option pqc :=
  if negb (validate_crypto_params (co_params o)) then None else
  let '(ct, ss) := kem_encap P (ab_pk t) coins in
  let kx := mk_kex (Some (ab_pk t)) sk (Some ct) (Some ss) in
  let sgr := match ab_sig t with
             | None => Some None
             | Some (apk, s) => if sg_verify P apk (ab_pk t) s then Some (Some (mk_sig ssk (Some apk))) else None
             end in
  match sgr with
  | None => None
  | Some sg =>
      let ch := derive_keys (co_chain o) ss psks in
      match keys_to_aead_store (ch_alice ch) (ch_bob ch) kx (co_params o) sg Bob with
      | None => None
      | Some ks => Some (mk_pqc (co_params o) kx sg (Some ch) (Some ks) Bob)
      end
  end.

(** lib.rs:1162-1192 *)
Definition pq_b2a (c : pqc) : option b2a :=
  match kx_ct (pq_kex c) with
  | None => None
  | Some ct =>
      Some (mk_b2a ct (kem_pk P (kx_sk (pq_kex c)))
              (match pq_sig c with
               | None => None
               | Some s => Some (sg_pk P (sg_sk s), sg_sign P (sg_sk s) ct)
               end))
  end.

(** lib.rs:1077-1127 and 592-601: [alice_on_receive_ciphertext], then [load_symmetric_keys] 567-589.
    An answer with a signature to a container without signature keys panics in [get_sig_mut]
    ([None]); an answer without one leaves the remote signature key unset. *)
Definition pq_on_ct (c : pqc) (t : b2a) (psks : list bstr) : option pqc :=
  let sig_fine := match ba_sig t with
                  | None => true
                  | Some (bpk, s) => match pq_sig c with
                                     | None => false
                                     | Some _ => sg_verify P bpk (ba_ct t) s
                                     end
                  end in
  if negb sig_fine then None else
  let ss := kem_decap P (kx_sk (pq_kex c)) (ba_ct t) in
  let kx := mk_kex (Some (ba_pk t)) (kx_sk (pq_kex c)) (Some (ba_ct t)) (Some ss) in
  let sg := match ba_sig t, pq_sig c with
            | Some (bpk, _), Some s => Some (mk_sig (sg_sk s) (Some bpk))
            | _, s => s
            end in
  let ch := derive_keys (pq_chain c) ss psks in
  match keys_to_aead_store (ch_alice ch) (ch_bob ch) kx (pq_params c) sg (pq_side c) with
  | None => None
  | Some ks => Some (mk_pqc (pq_params c) kx sg (Some ch) (Some ks) (pq_side c))
  end.

(** lib.rs:540-559 *)
Definition enc_key (c : pqc) : option aead_module :=
  match pq_keys c with
  | None => None
  | Some (a, b) => match pq_side c with Alice => a | Bob => b end
  end.
Definition dec_key (c : pqc) : option aead_module :=
  match cp_enc (pq_params c) with
  | MlKemHybrid => enc_key c
  | _ => match pq_keys c with
         | None => None
         | Some (a, b) => match pq_side c with Alice => b | Bob => a end
         end
  end.

(** encryption.rs:100-240: what a module does with a message. Missing remote keys are an [unwrap]
    panic ([None]). *)
Definition mod_encrypt (m : aead_module) (nonce aad msg : bstr) : option bstr :=
  match m with
  | MSym alg k => Some (ae P alg k nonce aad msg)
  | MHyb l r kx sg =>
      match kx_remote kx with
      | None => None
      | Some rpk => Some (hy_seal P rpk (sg_sk sg) nonce aad (ae P AES_GCM_256 l (take 12 nonce) aad msg))
      end
  end.
Definition mod_decrypt (m : aead_module) (nonce aad ct : bstr) : option bstr :=
  match m with
  | MSym alg k => ad P alg k nonce aad ct
  | MHyb l r kx sg =>
      match sg_remote sg with
      | None => None
      | Some rsp => match hy_open P (kx_sk kx) rsp aad ct with
                    | None => None
                    | Some inner => ad P AES_GCM_256 r (take 12 nonce) aad inner
                    end
      end
  end.

(** lib.rs:658-675 [encrypt], and [decrypt]; the packet functions use the same keys with the header
    as aad (lib.rs:713-786). *)
Definition pq_encrypt (c : pqc) (nonce aad msg : bstr) : option bstr :=
  match enc_key c with None => None | Some m => mod_encrypt m nonce aad msg end.
Definition pq_decrypt (c : pqc) (nonce aad ct : bstr) : option bstr :=
  match dec_key c with None => None | Some m => mod_decrypt m nonce aad ct end.

(** One layer of a constructor: bank (once known) and container.
    stacked/ratchet.rs:570-586 [MessageRatchetConstructorInner], [ScrambleRatchetConstructor] *)
Notation layer := (option ebank * pqc)%type.

(** stacked/ratchet.rs [StackedRatchetConstructor] *)
Record constructor := mk_con {
  cn_params : crypto_params; cn_layers : list layer; cn_scr : layer;
  cn_nonce_msg : bstr; cn_nonce_scr : bstr; cn_cid : N; cn_version : N; cn_level : N
}.
(** stacked/ratchet.rs:527-538, 552-562 *)
Record a2b_transfer := mk_abt {
  abt_params : crypto_params; abt_txs : list a2b; abt_scr : a2b;
  abt_nonce_msg : bstr; abt_nonce_scr : bstr; abt_level : N; abt_cid : N; abt_version : N
}.
Record b2a_transfer := mk_bat {
  bat_txs : list b2a; bat_scr : b2a; bat_banks : list bstr; bat_scr_bank : bstr
}.

(** Random draws: per layer [i]; layer index [None] is the scramble ratchet. *)
Record rand_a := mk_ra { ra_sk : option nat -> bstr; ra_ssk : option nat -> bstr; ra_nonce_msg : bstr; ra_nonce_scr : bstr }.
Record rand_b := mk_rb { rb_sk : option nat -> bstr; rb_ssk : option nat -> bstr; rb_coins : option nat -> bstr; rb_bank : option nat -> bstr }.

(** stacked/ratchet.rs:228-262 [new_alice]; constructor_opts.rs:60-72 [implied_security_level]
    asserts 1 <= len < 255. *)
Fixpoint alice_layers (i : nat) (os : list copts) (r : rand_a) : option (list layer) :=
  match os with
  | [] => Some []
  | o :: os' => match pq_new_alice o (ra_sk r (Some i)) (ra_ssk r (Some i)), alice_layers (S i) os' r with
                | Some c, Some l => Some ((None, c) :: l)
                | _, _ => None
                end
  end.
Definition new_alice (os : list copts) (cid ver : N) (r : rand_a) : option constructor :=
  match os with
  | [] => None
  | o :: _ =>
      if (255 <=? length os)%nat then None else
      match alice_layers 0 os r, pq_new_alice (mk_opts (co_params o) None) (ra_sk r None) (ra_ssk r None) with
      | Some ls, Some s =>
          Some (mk_con (co_params o) ls (None, s) (ra_nonce_msg r) (ra_nonce_scr r) cid ver (N.of_nat (length os - 1)))
      | _, _ => None
      end
  end.

(** stacked/ratchet.rs:316-346 [stage0_alice] *)
Definition stage0_alice (c : constructor) : a2b_transfer :=
  mk_abt (cn_params c) (map (fun l => pq_a2b (snd l)) (cn_layers c)) (pq_a2b (snd (cn_scr c)))
    (cn_nonce_msg c) (cn_nonce_scr c) (cn_level c) (cn_cid c) (cn_version c).

(** stacked/ratchet.rs:264-314 [new_bob]: zip of the received parameters with the local options; a
    failing layer is dropped, then the count must be level + 1. *)
Fixpoint bob_layers (i : nat) (ts : list a2b) (os : list copts) (cid ver : N) (psks : list bstr) (r : rand_b) : list layer :=
  match ts, os with
  | t :: ts', o :: os' =>
      match pq_new_bob o t psks (rb_sk r (Some i)) (rb_ssk r (Some i)) (rb_coins r (Some i)) with
      | Some c => [(Some (mk_eb cid ver (rb_bank r (Some i))), c)]
      | None => []
      end ++ bob_layers (S i) ts' os' cid ver psks r
  | _, _ => []
  end.
Definition new_bob (cid : N) (os : list copts) (t : a2b_transfer) (psks : list bstr) (r : rand_b) : option constructor :=
  let ls := bob_layers 0 (abt_txs t) os cid (abt_version t) psks r in
  if negb (N.of_nat (length ls) =? abt_level t + 1) then None else
  match pq_new_bob (mk_opts (abt_params t) None) (abt_scr t) psks (rb_sk r None) (rb_ssk r None) (rb_coins r None) with
  | None => None
  | Some s =>
      Some (mk_con (abt_params t) ls (Some (mk_eb cid (abt_version t) (rb_bank r None)), s)
              (abt_nonce_msg t) (abt_nonce_scr t) cid (abt_version t) (abt_level t))
  end.

(** stacked/ratchet.rs:348-396 [stage0_bob] *)
Definition enc_bank (nonce : bstr) (l : layer) : option bstr :=
  match fst l with None => None | Some b => pq_encrypt (snd l) nonce [] (eb_ser P b) end.
Fixpoint opt_all {A} (l : list (option A)) : option (list A) :=
  match l with
  | [] => Some []
  | x :: l' => match x, opt_all l' with Some a, Some r => Some (a :: r) | _, _ => None end
  end.
Definition stage0_bob (c : constructor) : option b2a_transfer :=
  match opt_all (map (fun l => pq_b2a (snd l)) (cn_layers c)), pq_b2a (snd (cn_scr c)),
        opt_all (map (enc_bank (cn_nonce_msg c)) (cn_layers c)), enc_bank (cn_nonce_scr c) (cn_scr c) with
  | Some txs, Some s, Some bs, Some sb => Some (mk_bat txs s bs sb)
  | _, _, _, _ => None
  end.

(** stacked/ratchet.rs:398-498 [stage1_alice]. First loop (412-418): zip, an error aborts; layers
    beyond the received parameters are left as they are. Second loop (420-441). *)
Fixpoint on_cts (ls : list layer) (ts : list b2a) (psks : list bstr) : option (list layer) :=
  match ls, ts with
  | l :: ls', t :: ts' =>
      match pq_on_ct (snd l) t psks, on_cts ls' ts' psks with
      | Some c, Some r => Some ((fst l, c) :: r)
      | _, _ => None
      end
  | _, _ => Some ls
  end.
Definition open_bank (nonce : bstr) (cid : N) (c : pqc) (ct : bstr) : option ebank :=
  match pq_decrypt c nonce [] ct with
  | None => None
  | Some m => match eb_de P m with
              | None => None
              | Some b => Some (mk_eb cid (eb_version b) (eb_bytes b))
              end
  end.
Fixpoint open_banks (nonce : bstr) (cid : N) (ls : list layer) (cts : list bstr) : option (list layer) :=
  match ls, cts with
  | [], _ => Some []
  | _ :: _, [] => None
  | l :: ls', ct :: cts' =>
      match open_bank nonce cid (snd l) ct, open_banks nonce cid ls' cts' with
      | Some b, Some r => Some ((Some b, snd l) :: r)
      | _, _ => None
      end
  end.
Definition stage1_alice (c : constructor) (t : b2a_transfer) (psks : list bstr) : option constructor :=
  match on_cts (cn_layers c) (bat_txs t) psks with
  | None => None
  | Some ls1 =>
      match open_banks (cn_nonce_msg c) (cn_cid c) ls1 (bat_banks t), pq_on_ct (snd (cn_scr c)) (bat_scr t) psks with
      | Some ls2, Some s =>
          match open_bank (cn_nonce_scr c) (cn_cid c) s (bat_scr_bank t), ls2 with
          | Some sb, (Some b0, _) :: _ =>
              if eb_version sb =? eb_version b0 then
                Some (mk_con (cn_params c) ls2 (Some sb, s) (cn_nonce_msg c) (cn_nonce_scr c)
                        (cn_cid c) (cn_version c) (cn_level c))
              else None
          | _, _ => None
          end
      | _, _ => None
      end
  end.

(** stacked/ratchet.rs:586-629: the finished ratchet *)
Record ratchet := mk_ratchet { rt_layers : list (ebank * pqc); rt_scr : ebank * pqc }.
Fixpoint finish_layers (ver cid : N) (ls : list layer) : option (list (ebank * pqc)) :=
  match ls with
  | [] => Some []
  | (Some b, c) :: ls' =>
      match kx_ss (pq_kex c), finish_layers ver cid ls' with
      | Some _, Some r => if (eb_version b =? ver) && (eb_cid b =? cid) then Some ((b, c) :: r) else None
      | _, _ => None
      end
  | (None, _) :: _ => None
  end.
Definition finish (c : constructor) : option ratchet :=
  match cn_scr c with
  | (Some sb, s) =>
      match kx_ss (pq_kex s), finish_layers (eb_version sb) (eb_cid sb) (cn_layers c) with
      | Some _, Some ls => Some (mk_ratchet ls (sb, s))
      | _, _ => None
      end
  | (None, _) => None
  end.

(** stacked/ratchet.rs:118-144 [get_next_constructor_opts]; a missing chain is a panic ([None]) *)
Definition next_opts (r : ratchet) : option (list copts) :=
  match opt_all (map (fun l => pq_chain (snd l)) (rt_layers r)) with
  | None => None
  | Some chs =>
      let meta := sha256 P (concat (map ch_chain chs)) in
      opt_all (map (fun l => match pq_chain (snd l) with
                             | None => None
                             | Some c => Some (mk_opts (pq_params (snd l)) (Some (mk_chain meta (ch_alice c) (ch_bob c))))
                             end) (rt_layers r))
  end.

(** One whole exchange, the messages delivered as sent: initiator's ratchet, responder's ratchet.
    The pre-shared keys of the two ends are separate arguments. *)
Definition exchange (osA osB : list copts) (cidA cidB ver : N) (pskA pskB : list bstr)
    (ra : rand_a) (rb : rand_b) : option (ratchet * ratchet) :=
  match new_alice osA cidA ver ra with
  | None => None
  | Some cA =>
      match new_bob cidB osB (stage0_alice cA) pskB rb with
      | None => None
      | Some cB =>
          match stage0_bob cB with
          | None => None
          | Some t =>
              match stage1_alice cA t pskA with
              | None => None
              | Some cA' => match finish cA', finish cB with
                            | Some x, Some y => Some (x, y)
                            | _, _ => None
                            end
              end
          end
      end
  end.

(** A session between end 1 and end 2. The first exchange is started by end 1
    (constructor_opts.rs:79-89 [new_vec_init]: all chains empty); each later one by either end,
    from its latest ratchet (endpoint_crypto_container.rs:335-341, ratchets/mod.rs:123-129). *)
Record round := mk_round { rd_by_first : bool; rd_psk1 : list bstr; rd_psk2 : list bstr; rd_ra : rand_a; rd_rb : rand_b }.

Definition first_exchange (p : crypto_params) (level : N) (cid1 cid2 : N) (r : round) : option (ratchet * ratchet) :=
  let os := repeat (mk_opts p None) (N.to_nat level + 1) in
  exchange os os cid1 cid2 0 (rd_psk1 r) (rd_psk2 r) (rd_ra r) (rd_rb r).

Definition rt_version (r : ratchet) : N := eb_version (fst (rt_scr r)).
Definition rt_cid (r : ratchet) : N := eb_cid (fst (rt_scr r)).

Definition rekey (s : ratchet * ratchet) (r : round) : option (ratchet * ratchet) :=
  let '(r1, r2) := s in
  match next_opts r1, next_opts r2 with
  | Some o1, Some o2 =>
      if rd_by_first r then
        exchange o1 o2 (rt_cid r1) (rt_cid r2) ((rt_version r1 + 1) mod 2 ^ 32) (rd_psk1 r) (rd_psk2 r) (rd_ra r) (rd_rb r)
      else
        match exchange o2 o1 (rt_cid r2) (rt_cid r1) ((rt_version r2 + 1) mod 2 ^ 32) (rd_psk2 r) (rd_psk1 r) (rd_ra r) (rd_rb r) with
        | Some (x, y) => Some (y, x)
        | None => None
        end
  | _, _ => None
  end.

Fixpoint rekeys (s : ratchet * ratchet) (rs : list round) : option (ratchet * ratchet) :=
  match rs with
  | [] => Some s
  | r :: rs' => match rekey s r with None => None | Some s' => rekeys s' rs' end
  end.

Definition run_session (p : crypto_params) (level cid1 cid2 : N) (r0 : round) (rs : list round) : option (ratchet * ratchet) :=
  match first_exchange p level cid1 cid2 r0 with
  | None => None
  | Some s => rekeys s rs
  end.
End Sched.
