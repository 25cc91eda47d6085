(** C06, C07: the key exchange and its renewals. *)
From Coq Require Import ZifyBool ZifyNat ZifyN.
From stdpp Require Import prelude.
From Verif Require Import Bytes Types_Model KeySched_Model KeySched_Spec KeySched_Proofs.
Local Open Scope N_scope.

(** C06. A session of any level, with any valid parameters, whose ends use the same pre-shared keys
    in each round: after the first exchange and any number of renewals, each started by either end,
    every exchange succeeds and the two ends' ratchets work together at every layer in both
    directions, with the same chaining values, entropy banks and version. *)
Theorem C06_both_ends_match P p level cid1 cid2 r0 rs :
  prims_ok P -> validate_crypto_params p = true -> level < 254 ->
  Forall (fun r => rd_psk1 r = rd_psk2 r) (r0 :: rs) ->
  exists r1 r2, run_session P p level cid1 cid2 r0 rs = Some (r1, r2) /\ ends_match P r1 r2 /\
    N.of_nat (length (rt_layers r1)) = level + 1 /\
    rt_version r1 = N.of_nat (length rs) mod 2 ^ 32 /\ rt_version r2 = rt_version r1 /\
    rt_cid r1 = cid1 /\ rt_cid r2 = cid2.
Proof. intros HP. by apply run_ok. Qed.

(** Level 254 and above is not usable: the constructor's assertion fails. *)
Theorem C06_level_limit P p level cid1 cid2 r0 rs :
  254 <= level -> run_session P p level cid1 cid2 r0 rs = None.
Proof.
  intros H. unfold run_session, first_exchange, exchange, new_alice.
  remember (repeat (mk_opts p None) (N.to_nat level + 1)) as os eqn:E.
  destruct os as [|o os]; [done|].
  replace (255 <=? length (o :: os))%nat with true; [done|].
  symmetry. apply Nat.leb_le. rewrite E, repeat_length. lia.
Qed.

(** C07. Two ends configured with different password lists (through PreSharedKey, which hashes each
    password): the exchange fails on the initiator, provided SHA3 does not collide on the values at
    hand and a ciphertext does not open under another key. [o] is layer 0's options: for a first
    exchange [co_chain o = None], for a renewal any chain of well-formed length. *)
Theorem C07_different_passwords_fail P o os pwA pwB cidA cidB ver ra rb :
  prims_ok P -> prims_strict P ->
  Forall (fun o => validate_crypto_params (co_params o) = true) (o :: os) ->
  (forall c, co_chain o = Some c -> length (ch_bob c) = 32%nat) ->
  pwA <> pwB ->
  (forall x y, x ∈ pwA -> y ∈ pwB -> sha256 P x = sha256 P y -> x = y) ->
  no_collision P (cp_enc (co_params o)) (co_chain o)
    (snd (kem_encap P (kem_pk P (ra_sk ra (Some 0%nat))) (rb_coins rb (Some 0%nat))))
    (concat (psk_of P pwA)) (concat (psk_of P pwB)) ->
  exchange P (o :: os) (o :: os) cidA cidB ver (psk_of P pwA) (psk_of P pwB) ra rb = None.
Proof.
  intros HP HS Hv Hlen Hne Hh Hnc. apply exchange_mismatch; try done.
  intros E. apply Hne. by apply (psk_concat_inj P HS).
Qed.

(** Below that API only the concatenation of the entries counts: lists with the same concatenation
    are interchangeable, so unhashed entries would be ambiguous. *)
Theorem C07_only_concatenation_counts P osA osB cidA cidB ver a a' b ra rb :
  concat a = concat a' ->
  exchange P osA osB cidA cidB ver a b ra rb = exchange P osA osB cidA cidB ver a' b ra rb.
Proof. apply exchange_concat. Qed.

Theorem C07_raw_lists_ambiguous P p level cid1 cid2 a b ra rb :
  prims_ok P -> validate_crypto_params p = true -> level < 254 ->
  exists r1 r2, first_exchange P p level cid1 cid2 (mk_round true [a; b] [a ++ b] ra rb) = Some (r1, r2) /\ ends_match P r1 r2.
Proof.
  intros HP Hv Hl.
  destruct (run_ok P HP p level cid1 cid2 (mk_round true [a ++ b] [a ++ b] ra rb) [] Hv Hl) as (r1 & r2 & H & M & _); [by repeat constructor|].
  exists r1, r2. split; [|done]. unfold run_session, first_exchange in *. cbn [rd_psk1 rd_psk2 rd_ra rd_rb] in *.
  rewrite (exchange_concat P _ _ _ _ _ [a; b] [a ++ b] [a ++ b]) by (cbn; by rewrite !app_nil_r).
  by destruct (exchange _ _ _ _ _ _ _ _ _ _) as [[? ?]|].
Qed.

(** Concrete primitives: the hypotheses are satisfiable. A "hash" pads or cuts to size; a
    ciphertext carries its key, a hybrid one its recipient and signer. *)
Definition pad (n : nat) (l : list N) : list N := take n (l ++ repeat 0 n).
Definition tagged (t m : list N) : list N := N.of_nat (length t) :: t ++ m.
Definition untag (t c : list N) : option (list N) :=
  match c with
  | n :: r => if decide (n = N.of_nat (length t) /\ take (length t) r = t) then Some (drop (length t) r) else None
  | [] => None
  end.
Definition toy : prims := {|
  kem_pk := fun sk => 7 :: sk;
  kem_encap := fun pk coins => (coins, pad 32 (pk ++ coins));
  kem_decap := fun sk ct => pad 32 ((7 :: sk) ++ ct);
  sg_pk := fun sk => 9 :: sk;
  sg_sign := fun sk m => sk ++ m;
  sg_verify := fun pk m s => bool_decide (pk = 9 :: take (length s - length m) s /\ drop (length s - length m) s = m);
  sha256 := pad 32;
  sha512 := fun x => pad 32 x ++ pad 32 (reverse x);
  ae := fun _ k _ _ m => tagged k m;
  ad := fun _ k _ _ c => untag k c;
  hy_seal := fun rpk ssk _ _ m => tagged rpk (tagged (9 :: ssk) m);
  hy_open := fun sk rsp _ c => match untag (7 :: sk) c with None => None | Some d => untag rsp d end;
  eb_ser := fun b => eb_cid b :: eb_version b :: eb_bytes b;
  eb_de := fun l => match l with c :: v :: r => Some (mk_eb c v r) | _ => None end
|}.

Lemma untag_tagged t m : untag t (tagged t m) = Some m.
Proof.
  unfold untag, tagged. rewrite take_app, drop_app. by rewrite decide_True.
Qed.

Lemma toy_ok : prims_ok toy.
Proof.
  split; cbn [toy kem_pk kem_encap kem_decap sg_pk sg_sign sg_verify sha256 sha512 ae ad hy_seal hy_open eb_ser eb_de fst snd eb_cid eb_version eb_bytes].
  - done.
  - intros sk m. rewrite app_length. replace (length sk + length m - length m)%nat with (length sk) by lia.
    rewrite take_app, drop_app. by apply bool_decide_eq_true.
  - intros. apply untag_tagged.
  - intros. by rewrite !untag_tagged.
  - by intros [? ? ?].
Qed.

Lemma toy_strict : prims_strict toy.
Proof.
  assert (HL : forall n x, length (pad n x) = n).
  { intros. unfold pad. rewrite take_length, app_length, repeat_length. lia. }
  split; cbn [toy kem_pk kem_encap kem_decap sg_pk sg_sign sg_verify sha256 sha512 ae ad hy_seal hy_open eb_ser eb_de fst snd eb_cid eb_version eb_bytes].
  - intros. apply HL.
  - intros. by rewrite app_length, !HL.
  - intros _ k k' _ _ m Hne. unfold untag, tagged. rewrite decide_False; [done|].
    intros [E1 E2]. apply Nat2N.inj in E1. rewrite <- E1 in E2. rewrite take_app in E2. congruence.
Qed.

Definition ex_ra : rand_a := mk_ra (fun i => [default 99 (N.of_nat <$> i); 1]) (fun i => [default 98 (N.of_nat <$> i); 2]) (repeat 3 12) (repeat 4 12).
Definition ex_rb : rand_b := mk_rb (fun i => [default 97 (N.of_nat <$> i); 5]) (fun _ => [6]) (fun i => [default 96 (N.of_nat <$> i); 8]) (fun i => [default 95 (N.of_nat <$> i); 11]).
Definition ex_round (by1 : bool) (p1 p2 : list (list N)) : round := mk_round by1 (psk_of toy p1) (psk_of toy p2) ex_ra ex_rb.

(** A three-layer hybrid session, renewed by end 2 and then by end 1: version 2, and a message of
    end 2 at layer 1 is read by end 1. *)
Example C06_case :
  match run_session toy (mk_cp MlKemHybrid MlKem MlDsa65) 2 100 200 (ex_round true [[1; 2]] [[1; 2]]) [ex_round false [] []; ex_round true [[3]] [[3]]] with
  | Some (r1, r2) =>
      rt_version r1 = 2 /\ length (rt_layers r2) = 3%nat /\
      match rt_layers r1 !! 1%nat, rt_layers r2 !! 1%nat with
      | Some (_, c1), Some (_, c2) => (pq_encrypt toy c2 (repeat 1 12) [5] [42; 43] ≫= pq_decrypt toy c1 (repeat 1 12) [5]) = Some [42; 43]
      | _, _ => False
      end
  | None => False
  end.
Proof. vm_compute. done. Qed.

(** Different passwords: the exchange fails, at the start and at a renewal. *)
Example C07_case :
  let p := mk_cp AES_GCM_256 MlKem SigNone in
  run_session toy p 1 100 200 (ex_round true [[1; 2]] [[1; 3]]) [] = None /\
  run_session toy p 1 100 200 (ex_round true [[1; 2]] [[1; 2]]) [ex_round true [[5]] [[6]]] = None /\
  is_Some (run_session toy p 1 100 200 (ex_round true [[1; 2]] [[1; 2]]) [ex_round true [[5]] [[5]]]).
Proof. vm_compute. split_and!; eauto. Qed.

(** C53, what holds: the responder never uses a public key whose attached signature does not verify.
    A transfer whose scramble key is badly signed is refused; a badly signed layer key ends up in no
    layer (so an exchange of the agreed number of layers is refused). Missing: see the refutation. *)
Theorem C53_responder_bad_signature_partial P cid os T psks r :
  (badly_signed_a P (abt_scr T) -> new_bob P cid os T psks r = None) /\
  (forall c, new_bob P cid os T psks r = Some c ->
     Forall (fun l => exists t, t ∈ abt_txs T /\ ~ badly_signed_a P t /\ kx_remote (pq_kex (snd l)) = Some (ab_pk t)) (cn_layers c)).
Proof.
  split.
  - intros (apk & s & H1 & H2). unfold new_bob. destruct (negb _); [done|].
    destruct (pq_new_bob _ _ (abt_scr T) _ _ _ _) eqn:E; [|done].
    destruct (new_bob_signed _ _ _ _ _ _ _ _ E) as (H & _). specialize (H _ _ H1). congruence.
  - intros c H. unfold new_bob in H. destruct (negb _); [done|].
    destruct (pq_new_bob _ _ (abt_scr T) _ _ _ _) eqn:E; [|done]. injection H as <-. cbn [cn_layers].
    eapply Forall_impl; [apply bob_layers_signed|]. intros l (t & H1 & H2 & H3). exists t. split; [done|]. split; [|done].
    intros (apk & s & E1 & E2). specialize (H2 _ _ E1). congruence.
Qed.

(** The same for a whole layer list: one badly signed layer among as many as announced. *)
Theorem C53_responder_all_layers_partial P cid os T psks r t :
  N.of_nat (length (abt_txs T)) = abt_level T + 1 -> t ∈ abt_txs T -> badly_signed_a P t ->
  new_bob P cid os T psks r = None.
Proof.
  intros Hl Ht (apk & sg & H1 & H2). unfold new_bob.
  assert (length (bob_layers P 0 (abt_txs T) os cid (abt_version T) psks r) < length (abt_txs T))%nat as Hlt; cycle 1.
  { destruct (N.eqb_spec (N.of_nat (length (bob_layers P 0 (abt_txs T) os cid (abt_version T) psks r))) (abt_level T + 1)); [lia|done]. }
  clear Hl. revert Ht. generalize (abt_txs T) as ts. intros ts. generalize 0%nat as i. revert os.
  assert (forall ts os i, (length (bob_layers P i ts os cid (abt_version T) psks r) <= length ts)%nat) as Hle.
  { clear. induction ts as [|x ts IH]; intros [|o os] i; cbn [bob_layers length]; try lia.
    specialize (IH os (S i)). destruct (pq_new_bob _ _ _ _ _ _ _); cbn [app length]; lia. }
  induction ts as [|x ts IH]; intros os i Ht; [by apply elem_of_nil in Ht|].
  destruct os as [|o os]; cbn [bob_layers length]; [lia|]. rewrite app_length.
  apply elem_of_cons in Ht as [<-|Ht].
  - destruct (pq_new_bob _ _ _ _ _ _ _) eqn:E.
    + destruct (new_bob_signed _ _ _ _ _ _ _ _ E) as (H & _). specialize (H _ _ H1). congruence.
    + cbn [length]. specialize (Hle ts os (S i)). lia.
  - specialize (IH os (S i) Ht). destruct (pq_new_bob _ _ _ _ _ _ _); cbn [length]; lia.
Qed.

(** And the initiator: a badly signed answer at any of its layers, or for scrambling, is refused. *)
Theorem C53_initiator_bad_signature_partial P c T psks :
  (exists t, (t ∈ take (length (cn_layers c)) (bat_txs T) \/ t = bat_scr T) /\ badly_signed_b P t) ->
  stage1_alice P c T psks = None.
Proof.
  intros (t & Ht & bpk & s & H1 & H2). destruct (stage1_alice P c T psks) eqn:E; [exfalso|done].
  destruct (stage1_signed _ _ _ _ _ E) as [H3 H4]. destruct Ht as [Ht| ->].
  - rewrite Forall_forall in H3. specialize (H3 t Ht _ _ H1). congruence.
  - specialize (H4 _ _ H1). congruence.
Qed.

(** C53 is false: although both ends are configured with a signature scheme, a first message whose
    keys are replaced by anybody's and whose signatures are simply left out is accepted, for every
    cipher but the hybrid one. *)
Theorem C53_stripped_refuted P p cid psks r T :
  validate_crypto_params p = true -> cp_sig p <> SigNone -> cp_enc p <> MlKemHybrid ->
  abt_params T = p -> N.of_nat (length (abt_txs T)) = abt_level T + 1 ->
  Forall (fun t => ab_sig t = None) (abt_scr T :: abt_txs T) ->
  is_Some (new_bob P cid (repeat (mk_opts p None) (length (abt_txs T))) T psks r).
Proof.
  intros Hv _ He Hp Hl [Hs Hs']%Forall_cons. unfold new_bob. rewrite unsigned_layers_len by done.
  rewrite Hl, N.eqb_refl. cbn [negb].
  destruct (unsigned_layer_ok P p (mk_opts (abt_params T) None) (abt_scr T) psks (rb_sk r None) (rb_ssk r None) (rb_coins r None) Hp Hv He Hs) as [c ->].
  eauto.
Qed.

(** One honest first message with signatures: accepted as sent, refused when a layer's key is
    replaced, accepted again when all signatures are dropped. *)
Example C53_case :
  let p := mk_cp AES_GCM_256 MlKem MlDsa65 in
  let os := repeat (mk_opts p None) 2 in
  match new_alice os 100 0 ex_ra with
  | Some cA =>
      let T := stage0_alice toy cA in
      let swap t := mk_a2b [66; 66] (ab_sig t) in
      let strip t := mk_a2b [66; 66] None in
      let edit f g := mk_abt (abt_params T) (f (abt_txs T)) (g (abt_scr T)) (abt_nonce_msg T) (abt_nonce_scr T) (abt_level T) (abt_cid T) (abt_version T) in
      is_Some (new_bob toy 200 os T [] ex_rb) /\
      new_bob toy 200 os (edit (fun l => take 1 l ++ map swap (drop 1 l)) id) [] ex_rb = None /\
      new_bob toy 200 os (edit id swap) [] ex_rb = None /\
      is_Some (new_bob toy 200 os (edit (map strip) strip) [] ex_rb)
  | None => False
  end.
Proof. vm_compute. split_and!; eauto. Qed.

Print Assumptions C53_responder_bad_signature_partial.
Print Assumptions C53_responder_all_layers_partial.
Print Assumptions C53_initiator_bad_signature_partial.
Print Assumptions C53_stripped_refuted.
Print Assumptions C06_both_ends_match.
Print Assumptions C06_level_limit.
Print Assumptions C07_different_passwords_fail.
Print Assumptions C07_only_concatenation_counts.
Print Assumptions C07_raw_lists_ambiguous.
