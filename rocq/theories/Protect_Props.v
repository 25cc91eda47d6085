(** C04, C05, C49: packet protection. *)
From Coq Require Import ZifyBool ZifyNat ZifyN.
From stdpp Require Import prelude gmap functions.
From Verif Require Import Bytes Replay_Model Replay_Spec Replay_Proofs Protect_Model Protect_Spec Protect_Proofs.
Local Open Scope N_scope.

(** C04. Whatever arrives - honest packets, replays, reorderings, modified or invented bytes, at any
    level - the accepted (header, payload) pairs are, counted with multiplicity, among those sent. *)
Theorem C04_at_most_once_unmodified enc nonce_of count ctr0 ops :
  one_epoch ops -> N.of_nat (length ops) <= 2 ^ 64 ->
  let h := zip ops (run enc nonce_of count (init ctr0) ops).2 in
  delivered h ⊆+ sent h.
Proof. apply at_most_once. Qed.

(** Bytes whose outermost ciphertext the sender never produced for this level and header are refused
    and change nothing. *)
Theorem C04_forgery_changes_nothing enc nonce_of count s lvl h body :
  (forall idx nonce m, (idx, nonce, h, m) ∈ log s -> verify_level count lvl = Some idx -> (8 <= length body)%nat ->
     enc idx nonce h m <> take (length body - 8) body) ->
  step enc nonce_of count s (Arrive lvl h body) = (s, None).
Proof. intros H. apply forged_no_effect. intros idx Hv Hl nonce m Hin. by apply (H idx nonce m). Qed.

(** At the lowest level every rejected packet leaves all state as it was. Missing for C04: the same
    at higher levels, which is false (next theorem). *)
Theorem C04_reject_level0_partial enc nonce_of count s h body s' :
  step enc nonce_of count s (Arrive (Some 0) h body) = (s', None) ->
  snd_ara s' = snd_ara s /\ snd_ctr s' = snd_ctr s /\ log s' = log s /\ forall n, rcv_ara s' n = rcv_ara s n.
Proof. apply reject_level0. Qed.

(** A concrete AEAD for the examples: everything is kept, with a length prefix per field. *)
Definition tag (l : list N) : list N := be_enc 8 (N.of_nat (length l)) ++ l.
Definition ex_enc (n : nat) (nonce aad m : list N) : list N := [N.of_nat n] ++ tag nonce ++ tag aad ++ m.
Definition ex_nonce (n : nat) (i : N) : list N := N.of_nat n :: be_enc 8 i.

(** Example: two honest packets at levels 0 and 1; delivery in the other order; replays and a
    bit-flipped copy are refused. *)
Definition ex_sends : list op := [Send (Some 0) [1] [10; 11]; Send (Some 1) [2] [12]].
Definition ex_s := (run ex_enc ex_nonce 2 (init (fun _ => 5)) ex_sends).1.
Definition ex_bytes (k : nat) : list N := default [] (default None ((run ex_enc ex_nonce 2 (init (fun _ => 5)) ex_sends).2 !! k)).
Example C04_case :
  (run ex_enc ex_nonce 2 ex_s
    [Arrive (Some 1) [2] (ex_bytes 1); Arrive (Some 0) [1] (ex_bytes 0); Arrive (Some 1) [2] (ex_bytes 1);
     Arrive (Some 0) [1] (ex_bytes 0); Arrive (Some 0) [9] (ex_bytes 0); Arrive (Some 0) [1] (0 :: ex_bytes 0);
     Arrive (Some 0) [2] (ex_bytes 1)]).2 = [Some [12]; Some [10; 11]; None; None; None; None; None].
Proof. vm_compute. done. Qed.

(** At level 1 a rejected packet can consume replay state: the outer layer's ID is recorded although
    the inner layer then refuses the packet as too old. *)
Theorem C04_refuted : exists ops lvl h body,
  let s := (run ex_enc ex_nonce 2 (init (fun _ => 0)) ops).1 in
  exists s', step ex_enc ex_nonce 2 s (Arrive lvl h body) = (s', None) /\ rcv_ara s' 1%nat <> rcv_ara s 1%nat.
Proof.
  pose (first := Send (Some 1) [2] [12]).
  pose (many := repeat (Send (Some 0) [1] [10]) 1025).
  pose (out := (run ex_enc ex_nonce 2 (init (fun _ => 0)) (first :: many)).2).
  pose (last_bytes := default [] (default None (out !! 1025%nat))).
  pose (first_bytes := default [] (default None (out !! 0%nat))).
  exists ((first :: many) ++ [Arrive (Some 0) [1] last_bytes]), (Some 1), [2], first_bytes.
  cbv zeta.
  match goal with |- exists s', step _ _ _ ?s ?o = _ /\ _ => set (st := s); set (arr := o) end.
  exists (step ex_enc ex_nonce 2 st arr).1. split.
  - assert ((step ex_enc ex_nonce 2 st arr).2 = None) as E by (vm_compute; reflexivity).
    rewrite <- E. apply surjective_pairing.
  - intros E. apply (f_equal ara_high_water) in E. vm_compute in E. discriminate.
Qed.

(** C05. After any history of the channel, a freshly protected packet is accepted and gives back
    exactly the payload, at every level the ratchet supports. *)
Theorem C05_round_trip enc nonce_of count ctr0 ops lvl h p s' bytes :
  (forall n nonce aad m m', enc n nonce aad m = enc n nonce aad m' -> m = m') ->
  (forall n, ctr0 n < 2 ^ 64) -> one_epoch ops -> N.of_nat (length ops) < 2 ^ 64 ->
  let s := (run enc nonce_of count (init ctr0) ops).1 in
  step enc nonce_of count s (Send lvl h p) = (s', Some bytes) ->
  (step enc nonce_of count s' (Arrive lvl h bytes)).2 = Some p.
Proof.
  intros Hinj Hctr Ho Hl s Hs. cbn [step] in *. unfold protect in Hs. unfold validate.
  destruct (verify_level count lvl) as [idx|]; [|done].
  destruct (run_inv enc nonce_of count ops 0 _ _ _ _ Ho (init_inv enc nonce_of ctr0) ltac:(lia)) as [acc HI]. fold s in HI.
  fold (prot_upto enc nonce_of h s p (S idx)) in Hs.
  pose proof (prot_upto_facts enc nonce_of h s p (S idx)) as HF.
  pose proof (down_roundtrip enc nonce_of count Hinj (0 + N.of_nat (length ops)) h p s _ _ _ (S idx) s' HI ltac:(lia)) as HD.
  destruct (prot_upto enc nonce_of h s p (S idx)) as [s1 body]. simplify_eq. destruct HF as (HF1 & _). apply HD; cbn [fst]; try done.
  - apply run_ctr. done.
  - intros n _. by rewrite HF1.
Qed.

(** The level is checked on both ends: with [count] (1 to 256) layers, levels below [count] are
    served, all others are an error that changes nothing. *)
Theorem C05_levels_checked enc nonce_of count s lvl h p :
  (1 <= count <= 256)%nat ->
  let ok := default 0 lvl < N.of_nat count in
  (ok -> is_Some (step enc nonce_of count s (Send lvl h p)).2) /\
  (~ ok -> step enc nonce_of count s (Send lvl h p) = (s, None)) /\
  (~ ok -> forall body, step enc nonce_of count s (Arrive lvl h body) = (s, None)).
Proof.
  intros Hc ok. cbn [step]. unfold protect, validate.
  assert (verify_level count lvl = if decide ok then Some (N.to_nat (default 0 lvl)) else None) as ->.
  { unfold verify_level. destruct (Nat.eqb_spec count 0); [lia|]. rewrite N.mod_small by lia.
    destruct (N.ltb_spec (N.of_nat (count - 1)) (default 0 lvl)); destruct (decide ok) as [Hok|Hok]; unfold ok in *; try done; lia. }
  destruct (decide ok) as [Hok|Hok]; split_and!; try done; intros _.
  by destruct (foldl _ _ _).
Qed.

(** No silent downgrade: bytes protected at one level are refused, without effect, at any other. *)
Theorem C05_no_level_change enc nonce_of count s lvl lvl' h h' p s' bytes :
  (forall n nonce aad m n' nonce' aad' m', enc n nonce aad m = enc n' nonce' aad' m' -> n = n') ->
  snd_ctr s (N.to_nat (default 0 lvl)) < 2 ^ 64 ->
  step enc nonce_of count s (Send lvl h p) = (s', Some bytes) ->
  default 0 lvl <> default 0 lvl' ->
  step enc nonce_of count s' (Arrive lvl' h' bytes) = (s', None).
Proof.
  intros Hinj Hctr Hs Hne. cbn [step] in *. apply forged_no_effect. intros idx' Hv' Hlen nonce' m' Hin Heq.
  unfold protect in Hs. destruct (verify_level count lvl) as [idx|] eqn:Hv; [|done].
  assert (idx = N.to_nat (default 0 lvl)) as Ei by (unfold verify_level in Hv; repeat case_match; by simplify_eq).
  assert (idx' = N.to_nat (default 0 lvl')) as Ei' by (unfold verify_level in Hv'; repeat case_match; by simplify_eq).
  fold (prot_upto enc nonce_of h s p (S idx)) in Hs. rewrite prot_upto_S in Hs.
  pose proof (prot_upto_facts enc nonce_of h s p idx) as HF.
  destruct (prot_upto enc nonce_of h s p idx) as [s1 b1]. destruct HF as (_ & _ & _ & _ & HF5).
  unfold protect_layer in Hs. cbn [get_next_pid] in Hs. rewrite HF5 in Hs by done.
  destruct (trailer_split (enc idx (nonce_of idx (snd_ctr s idx)) h (b1 ++ be_enc 8 (ara_counter_out (snd_ara s1 idx)))) (snd_ctr s idx))
    as (_ & Et & _). { by rewrite Ei. }
  assert (bytes = enc idx (nonce_of idx (snd_ctr s idx)) h (b1 ++ be_enc 8 (ara_counter_out (snd_ara s1 idx))) ++ be_enc 8 (snd_ctr s idx)) as ->.
  { apply (f_equal snd) in Hs. cbn [snd] in Hs. congruence. }
  rewrite Et in Heq. apply Hinj in Heq. lia.
Qed.

Example C05_case :
  let send lvl := step ex_enc ex_nonce 3 (init (fun _ => 2^64 - 1)) (Send lvl [1; 2] [10; 11; 12]) in
  let back lvl lvl' := match send lvl with (s', Some b) => (step ex_enc ex_nonce 3 s' (Arrive lvl' [1; 2] b)).2 | _ => None end in
  back (Some 0) (Some 0) = Some [10; 11; 12] /\ back (Some 2) (Some 2) = Some [10; 11; 12] /\
  back None (Some 0) = Some [10; 11; 12] /\ back (Some 2) (Some 1) = None /\ (send (Some 3)).2 = None.
Proof. vm_compute. done. Qed.

(** C49 is false: the handshake ratchet's replay memory is cleared at the start of every session, so
    a recorded packet of an earlier session is accepted again, although it was sent once. *)
Theorem C49_refuted : exists ops,
  let h := zip ops (run ex_enc ex_nonce 1 (init (fun _ => 5)) ops).2 in
  sent h = [([1], [10; 11])] /\ delivered h = [([1], [10; 11]); ([1], [10; 11])].
Proof.
  exists [Send None [1] [10; 11]; Arrive None [1] (ex_bytes 0); RefreshReceiver; Arrive None [1] (ex_bytes 0)].
  vm_compute. done.
Qed.

(** Within one session (between two refreshes) the guarantee of C04 holds for the handshake ratchet
    too: it is C04 applied to the packets of that session. What remains true across sessions: nothing
    that was never sent is accepted. *)
Theorem C49_nothing_invented_partial enc nonce_of count ctr0 ops d :
  let h := zip ops (run enc nonce_of count (init ctr0) ops).2 in
  d ∈ delivered h -> d ∈ sent h.
Proof. apply run_delivered_sent. Qed.

Example C49_case :
  let ops := [Send None [1] [10; 11]; Arrive None [1] (ex_bytes 0); RefreshSender; RefreshReceiver;
              Send None [1] [10; 12]; Arrive None [1] (0 :: ex_bytes 0)] in
  delivered (zip ops (run ex_enc ex_nonce 1 (init (fun _ => 5)) ops).2) = [([1], [10; 11])].
Proof. vm_compute. done. Qed.

Print Assumptions C04_at_most_once_unmodified.
Print Assumptions C04_forgery_changes_nothing.
Print Assumptions C04_reject_level0_partial.
Print Assumptions C04_refuted.
Print Assumptions C05_round_trip.
Print Assumptions C05_levels_checked.
Print Assumptions C05_no_level_change.
Print Assumptions C49_refuted.
Print Assumptions C49_nothing_invented_partial.
