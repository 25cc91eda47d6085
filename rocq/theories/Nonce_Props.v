(** C47: nonces. *)
From Coq Require Import ZifyBool ZifyNat ZifyN.
From stdpp Require Import prelude.
From Verif Require Import Bytes Nonce_Model.
Local Open Scope N_scope.

Lemma pow256_8 : pow256 8 = 2 ^ 64.
Proof. reflexivity. Qed.

Lemma random_base_lt r : r < 2 ^ 64 -> random_base r < 2 ^ 63.
Proof. intros H. unfold random_base. rewrite N.shiftr_div_pow2. apply N.div_lt_upper_bound; lia. Qed.

Lemma ids_lookup k : forall b i, (i < k)%nat -> bk_counter b < 2 ^ 64 ->
  ids k b !! i = Some ((bk_counter b + N.of_nat i) mod 2 ^ 64).
Proof.
  induction k as [|k IH]; intros b i Hi Hb; [lia|]. cbn [ids next_id]. destruct i as [|i]; cbn [lookup list_lookup].
  - rewrite N.add_0_r, N.mod_small by done. done.
  - rewrite IH; cbn [bk_counter]; [|lia|apply N.mod_lt; lia]. f_equal. rewrite N.add_mod_idemp_l by lia. f_equal. lia.
Qed.

Lemma ids_length k : forall b, length (ids k b) = k.
Proof. induction k as [|k IH]; intros b; cbn; [done|]. by rewrite IH. Qed.

Lemma ids_lt k b i : bk_counter b < 2 ^ 64 -> i ∈ ids k b -> i < 2 ^ 64.
Proof.
  intros Hb Hi. apply elem_of_list_lookup in Hi as [x Hi]. pose proof (lookup_lt_Some _ _ _ Hi) as L. rewrite ids_length in L.
  rewrite ids_lookup in Hi by done. simplify_eq. apply N.mod_lt. lia.
Qed.

Lemma mod_window_inj x i j : i < 2 ^ 64 -> j < 2 ^ 64 -> (x + i) mod 2 ^ 64 = (x + j) mod 2 ^ 64 -> i = j.
Proof.
  intros Hi Hj H. pose proof (N.div_mod (x + i) (2^64)). pose proof (N.div_mod (x + j) (2^64)).
  assert (2 ^ 64 <> 0) by done. remember (2 ^ 64) as m. rewrite H in *.
  assert ((x + i) / m = (x + j) / m) as E; [|nia].
  destruct (N.lt_trichotomy ((x + i) / m) ((x + j) / m)) as [?|[?|?]]; [nia|done|nia].
Qed.

Lemma ids_nodup k b : bk_counter b < 2 ^ 64 -> N.of_nat k <= 2 ^ 64 -> NoDup (ids k b).
Proof.
  intros Hb Hk. apply NoDup_alt. intros i j x Hi Hj.
  pose proof (lookup_lt_Some _ _ _ Hi) as Li. pose proof (lookup_lt_Some _ _ _ Hj) as Lj. rewrite ids_length in *.
  rewrite ids_lookup in Hi, Hj by done. rewrite <- Hj in Hi. injection Hi as Hi. apply mod_window_inj in Hi; lia.
Qed.

(** All nonces of one bank instance, for up to 2^64 uses, are pairwise different - provided the
    (truncated) keyed hash does not collide on two 64-bit ids. *)
Theorem C47_nonces_distinct prf nonce_len entropy r k :
  (forall i j, i < 2 ^ 64 -> j < 2 ^ 64 -> take nonce_len (prf entropy i) = take nonce_len (prf entropy j) -> i = j) ->
  r < 2 ^ 64 -> N.of_nat k <= 2 ^ 64 ->
  let b := fresh entropy r in
  NoDup (get_nonce prf nonce_len b <$> ids k b).
Proof.
  intros Hinj Hr Hk b. assert (bk_counter b < 2 ^ 64) as Hb.
  { pose proof (random_base_lt r Hr). change (bk_counter b) with (random_base r). lia. }
  apply NoDup_fmap_2_strong; [|by apply ids_nodup].
  intros i j Hi Hj H. apply Hinj; [by eapply ids_lt|by eapply ids_lt|exact H].
Qed.

(** After 2^64 uses the first nonce comes back. *)
Theorem C47_bound_is_sharp prf nonce_len b k :
  bk_counter b < 2 ^ 64 -> 2 ^ 64 < N.of_nat k ->
  exists j, (0 < j)%nat /\ (get_nonce prf nonce_len b <$> ids k b) !! j = (get_nonce prf nonce_len b <$> ids k b) !! 0%nat.
Proof.
  intros Hb Hk. exists (N.to_nat (2 ^ 64)). split; [lia|]. rewrite !list_lookup_fmap, !ids_lookup by lia. do 2 f_equal.
  rewrite N2Nat.id. rewrite N.add_mod, N.mod_same by lia. cbn [N.of_nat]. rewrite !N.add_0_r, N.mod_mod by lia. done.
Qed.

(** A restored copy of the bank (same key) shares no nonce with the original if their counter ranges
    do not meet; the persisted counter has no influence. *)
Theorem C47_restored_copy prf nonce_len b r k k' :
  (forall i j, i < 2 ^ 64 -> j < 2 ^ 64 -> take nonce_len (prf (bk_entropy b) i) = take nonce_len (prf (bk_entropy b) j) -> i = j) ->
  bk_counter b < 2 ^ 64 -> r < 2 ^ 64 ->
  bk_counter b + N.of_nat k <= N.shiftr r 1 \/ N.shiftr r 1 + N.of_nat k' <= bk_counter b ->
  bk_counter b + N.of_nat k <= 2 ^ 64 -> N.of_nat k' <= 2 ^ 63 ->
  forall n, n ∈ get_nonce prf nonce_len b <$> ids k b ->
            n ∉ get_nonce prf nonce_len (restore b r) <$> ids k' (restore b r).
Proof.
  intros Hinj Hb Hr Hdis Hk Hk' n H1 H2.
  apply elem_of_list_fmap in H1 as (i & -> & Hi). apply elem_of_list_fmap in H2 as (j & E & Hj).
  unfold get_nonce in E. cbn [restore bk_entropy] in E.
  pose proof (random_base_lt r Hr) as Hs. unfold random_base in Hs.
  assert (2 ^ 64 = 2 * 2 ^ 63) as E64 by reflexivity.
  apply elem_of_list_lookup in Hi as [x Hi]. apply elem_of_list_lookup in Hj as [y Hj].
  pose proof (lookup_lt_Some _ _ _ Hi) as Li. pose proof (lookup_lt_Some _ _ _ Hj) as Lj. rewrite ids_length in *.
  rewrite ids_lookup in Hi by done. rewrite ids_lookup in Hj; [|done|cbn [restore bk_counter]; unfold random_base; lia].
  cbn [restore bk_counter] in Hj. unfold random_base in Hj. simplify_eq.
  apply Hinj in E; [|apply N.mod_lt; lia|apply N.mod_lt; lia].
  rewrite !N.mod_small in E by lia. lia.
Qed.

(** The nonce the receiver derives from the packet is the sender's, so decryption inverts encryption. *)
Theorem C47_receiver_nonce prf nonce_len b b' f g buf out nonce b1 :
  bk_counter b < 2 ^ 64 -> bk_entropy b' = bk_entropy b ->
  (forall m n c, f m n = Some c -> g c n = Some m) ->
  wrap_enx prf nonce_len b f buf = (Some out, nonce, b1) ->
  wrap_dex prf nonce_len b' g out = Some buf.
Proof.
  intros Hb He Hfg H. unfold wrap_enx in H. cbn [next_id] in H.
  destruct (f buf _) as [c|] eqn:E; [|done]. simplify_eq. unfold wrap_dex.
  rewrite app_length, be_enc_length. replace (length c + 8 - 8)%nat with (length c) by lia.
  rewrite drop_app, take_app, be_enc_length. cbn [Nat.eqb negb]. rewrite be_dec_enc by (rewrite pow256_8; done).
  apply Hfg. rewrite <- E. unfold get_nonce. by rewrite He.
Qed.

Theorem C47_short_buffer_refused prf nonce_len b g buf :
  (length buf < 8)%nat -> wrap_dex prf nonce_len b g buf = None.
Proof.
  intros H. unfold wrap_dex. replace (length buf - 8)%nat with 0%nat by lia. rewrite drop_0.
  destruct (Nat.eqb_spec (length buf) 8); [lia|done].
Qed.

Example C47_case :
  let prf e i := e ++ be_enc 8 i in
  let b := fresh [7; 7] 10 in
  (get_nonce prf 12 b <$> ids 3 b) = [[7;7;0;0;0;0;0;0;0;5]; [7;7;0;0;0;0;0;0;0;6]; [7;7;0;0;0;0;0;0;0;7]] /\
  (wrap_enx prf 12 b (fun m n => Some (n ++ m)) [1; 2]).1.1 = Some ([7;7;0;0;0;0;0;0;0;5; 1;2] ++ [0;0;0;0;0;0;0;5]).
Proof. vm_compute. done. Qed.

Print Assumptions C47_nonces_distinct.
Print Assumptions C47_bound_is_sharp.
Print Assumptions C47_restored_copy.
Print Assumptions C47_receiver_nonce.
Print Assumptions C47_short_buffer_refused.
