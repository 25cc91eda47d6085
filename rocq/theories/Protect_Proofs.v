From Coq Require Import ZifyBool ZifyNat ZifyN.
From stdpp Require Import prelude gmap functions.
From Verif Require Import Bytes Replay_Model Replay_Spec Replay_Proofs Protect_Model Protect_Spec.
Local Open Scope N_scope.

Lemma pow256_8 : pow256 8 = 2 ^ 64.
Proof. reflexivity. Qed.

Lemma trailer_split (b : list N) v : v < 2 ^ 64 ->
  let l := b ++ be_enc 8 v in
  (length l <? 8)%nat = false /\ take (length l - 8) l = b /\ be_dec (drop (length l - 8) l) = v.
Proof.
  intros Hv l. unfold l. rewrite app_length, be_enc_length. split; [lia|].
  replace (length b + 8 - 8)%nat with (length b) by lia. rewrite take_app, drop_app. split; [done|].
  apply be_dec_enc. by rewrite pow256_8.
Qed.

Lemma submseteq_of_indices {A} `{Inhabited A} (sents dels : list A) (idx : list nat) :
  NoDup idx -> Forall2 (fun i d => sents !! i = Some d) idx dels -> dels ⊆+ sents.
Proof.
  intros Hnd Hf.
  assert (dels = (fun i => default inhabitant (sents !! i)) <$> idx) as ->.
  { clear Hnd. induction Hf as [|i d idx dels Hi Hf IH]; cbn; [done|]. rewrite Hi. by f_equal. }
  assert (sents = (fun i => default inhabitant (sents !! i)) <$> seq 0 (length sents)) as Hs.
  { apply list_eq. intros i. rewrite list_lookup_fmap. destruct (decide (i < length sents)%nat) as [Hi|Hi].
    - rewrite lookup_seq_lt by done. cbn. destruct (sents !! i) eqn:E; [done|]. apply lookup_ge_None in E. lia.
    - rewrite lookup_seq_ge by lia. apply lookup_ge_None. lia. }
  transitivity ((fun i => default inhabitant (sents !! i)) <$> seq 0 (length sents)); [|by rewrite <- Hs].
  apply fmap_submseteq. apply NoDup_submseteq; [done|]. intros i Hi.
  apply elem_of_list_lookup in Hi as [k Hk]. destruct (Forall2_lookup_l _ _ _ _ _ Hf Hk) as (d & _ & Hd).
  apply elem_of_seq. apply lookup_lt_Some in Hd. lia.
Qed.

Section Protect.
Variable enc : nat -> list N -> list N -> list N -> list N.
Variable nonce_of : nat -> N -> list N.
Variable count : nat.
Notation protect_layer := (protect_layer enc nonce_of).
Notation protect := (protect enc nonce_of count).
Notation validate_layer := (validate_layer enc nonce_of).
Notation validate_down := (validate_down enc nonce_of).
Notation validate := (validate enc nonce_of count).
Notation step := (step enc nonce_of count).
Notation run := (run enc nonce_of count).
Notation open := (open enc).

Lemma open_Some l n nonce h ct m : open l n nonce h ct = Some m -> (n, nonce, h, m) ∈ l /\ enc n nonce h m = ct.
Proof.
  induction l as [|[[[n' nonce'] h'] m'] l IH]; cbn [Protect_Model.open]; [done|].
  case_bool_decide as Hd.
  - destruct Hd as (-> & -> & -> & E). intros [= ->]. split; [by left|done].
  - intros H. destruct (IH H). split; [by right|done].
Qed.

Lemma open_complete l n nonce h m :
  (forall n nonce h m m', enc n nonce h m = enc n nonce h m' -> m = m') ->
  (n, nonce, h, m) ∈ l -> open l n nonce h (enc n nonce h m) = Some m.
Proof.
  intros Hinj. induction l as [|[[[n' nonce'] h'] m'] l IH]; cbn [Protect_Model.open]; intros Hin; [by apply not_elem_of_nil in Hin|].
  case_bool_decide as Hd.
  - destruct Hd as (-> & -> & -> & E). by rewrite (Hinj _ _ _ _ _ E).
  - apply elem_of_cons in Hin as [?|Hin]; [simplify_eq; exfalso; by apply Hd|by apply IH].
Qed.

(** Invariant. [k n]: packets protected at layer [n]; [acc n]: IDs accepted at layer [n]. *)
Record Inv (T : N) (s : state) (sents : list (list N * list N)) (acc : nat -> list N) (dels : list (list N * list N)) : Prop := {
  i_sents : N.of_nat (length sents) <= T;
  i_ctr0 : ara_counter_out (snd_ara s 0) = N.of_nat (length sents) mod 2 ^ 64;
  i_ctr : forall n, exists k, k <= N.of_nat (length sents) /\ ara_counter_out (snd_ara s n) = k mod 2 ^ 64 /\
            (forall nonce h m, (n, nonce, h, m) ∈ log s -> exists b i, i < k /\ m = b ++ be_enc 8 i);
  i_log0 : forall nonce h m, (O, nonce, h, m) ∈ log s ->
            exists i p, sents !! i = Some (h, p) /\ m = p ++ be_enc 8 (N.of_nat i);
  i_ara : forall n, Replay_Proofs.Inv (rcv_ara s n) (acc n);
  i_acc : forall n q, q ∈ acc n -> exists nonce h b, (n, nonce, h, b ++ be_enc 8 q) ∈ log s;
  i_dels : Forall2 (fun q d => sents !! N.to_nat q = Some d) (acc O) dels }.

Definition same_receiver (s s' : state) : Prop := rcv_ara s' = rcv_ara s.

(** One protect call, layer by layer. *)
Definition prot_upto (h : list N) (s : state) (p : list N) (k : nat) : state * list N :=
  foldl (protect_layer h) (s, p) (seq 0 k).

Lemma prot_upto_S h s p k : prot_upto h s p (S k) = protect_layer h (prot_upto h s p k) k.
Proof. unfold prot_upto. rewrite seq_S, foldl_app. done. Qed.

Lemma prot_upto_facts h s p k :
  let '(s', body) := prot_upto h s p k in
  rcv_ara s' = rcv_ara s /\
  (forall n, (k <= n)%nat -> snd_ara s' n = snd_ara s n) /\
  (forall n, (n < k)%nat -> ara_counter_out (snd_ara s' n) = (ara_counter_out (snd_ara s n) + 1) mod 2 ^ 64) /\
  (forall n nonce hd m, (n, nonce, hd, m) ∈ log s' <->
     (n, nonce, hd, m) ∈ log s \/
     (n < k)%nat /\ nonce = nonce_of n (snd_ctr s n) /\ hd = h /\
       m = (prot_upto h s p n).2 ++ be_enc 8 (ara_counter_out (snd_ara s n))) /\
  (forall n, (k <= n)%nat -> snd_ctr s' n = snd_ctr s n).
Proof.
  induction k as [|k IH].
  - cbn. repeat split; try done; try lia; [by left|]. intros [?|[? _]]; [done|lia].
  - rewrite prot_upto_S. destruct (prot_upto h s p k) as [s1 b1] eqn:E. destruct IH as (H1 & H2 & H3 & H4 & H5).
    unfold Protect_Model.protect_layer. cbn [get_next_pid]. cbn [rcv_ara snd_ara log snd_ctr].
    split; [done|]. split; [|split; [|split]].
    + intros n Hn. rewrite fn_lookup_insert_ne by lia. apply H2. lia.
    + intros n Hn. destruct (decide (n = k)) as [->|].
      * rewrite fn_lookup_insert. cbn [ara_counter_out]. by rewrite H2.
      * rewrite fn_lookup_insert_ne by done. apply H3. lia.
    + intros n nonce hd m. rewrite elem_of_cons, H4. rewrite H2, H5 by done. split.
      * intros [?|[?|(? & ?)]]; [|by left|right; split; [lia|done]]. simplify_eq. right. split; [lia|]. rewrite E. done.
      * intros [?|(Hn & -> & -> & ->)]; [by right; left|]. destruct (decide (n = k)) as [->|]; [|right; right; split; [lia|done]].
        left. by rewrite E.
    + intros n Hn. rewrite fn_lookup_insert_ne by lia. apply H5. lia.
Qed.

Lemma mod_small_le k T : k <= T -> T < 2 ^ 64 -> k mod 2 ^ 64 = k.
Proof. intros. apply N.mod_small. lia. Qed.

Lemma send_inv T s sents acc dels lvl h p s' r :
  Inv T s sents acc dels -> T < 2 ^ 64 -> protect s lvl h p = (s', r) ->
  Inv (T + 1) s' (match r with Some _ => sents ++ [(h, p)] | None => sents end) acc dels.
Proof.
  intros HI HT H. unfold Protect_Model.protect in H. destruct (verify_level count lvl) as [idx|].
  2:{ simplify_eq. destruct HI; constructor; try done. lia. }
  fold (prot_upto h s p (S idx)) in H. pose proof (prot_upto_facts h s p (S idx)) as HF.
  destruct (prot_upto h s p (S idx)) as [s1 body]. simplify_eq. destruct HF as (H1 & H2 & H3 & H4 & _).
  destruct HI as [I1 I2 I3 I4 I5 I6 I7].
  constructor.
  - rewrite app_length. cbn. lia.
  - rewrite H3 by lia. rewrite I2, app_length. cbn [length]. rewrite N.add_mod_idemp_l by lia. f_equal. lia.
  - intros n. destruct (I3 n) as (k & Hk & Hc & Hl). destruct (decide (n < S idx)%nat) as [Hn|Hn].
    + exists (k + 1). split; [rewrite app_length; cbn; lia|]. split; [rewrite H3, Hc, N.add_mod_idemp_l by lia; done|].
      intros nonce hd m [Hin|(_ & _ & _ & ->)]%H4.
      * destruct (Hl _ _ _ Hin) as (b & i & ? & ->). exists b, i. split; [lia|done].
      * eexists _, _. split; [|done]. rewrite Hc, (mod_small_le k T) by lia. lia.
    + exists k. split; [rewrite app_length; cbn; lia|]. rewrite H2 by lia. split; [done|].
      intros nonce hd m [Hin|(? & _)]%H4; [by apply (Hl _ _ _ Hin)|lia].
  - intros nonce hd m [Hin|(_ & _ & -> & ->)]%H4.
    + destruct (I4 _ _ _ Hin) as (i & q & Hi & ->). exists i, q. split; [|done]. by apply lookup_app_l_Some.
    + exists (length sents), p. split; [by rewrite lookup_app_r, Nat.sub_diag|].
      change (prot_upto h s p 0).2 with p. by rewrite I2, (mod_small_le _ T).
  - intros n. rewrite H1. apply I5.
  - intros n q Hq. destruct (I6 n q Hq) as (nonce & hd & b & Hin). exists nonce, hd, b. apply H4. by left.
  - eapply Forall2_impl; [exact I7|]. cbn. intros q d Hd. by apply lookup_app_l_Some.
Qed.

(** One validated layer. *)
Lemma layer_inv T s sents acc dels h body n s' r :
  Inv T s sents acc dels -> T < 2 ^ 64 -> validate_layer h s body n = (s', r) ->
  snd_ara s' = snd_ara s /\ snd_ctr s' = snd_ctr s /\ log s' = log s /\
  exists q, Inv T s' sents (match r with Some _ => <[n := acc n ++ [q]]> acc | None => acc end)
                 (match r with Some p => match n with O => dels ++ [(h, p)] | _ => dels end | None => dels end).
Proof.
  intros HI HT H. unfold Protect_Model.validate_layer in H.
  destruct (length body <? 8)%nat; [injection H as <- <-; split_and!; try done; by exists 0|].
  destruct (open _ _ _ _ _) as [m|] eqn:Eo; [|injection H as <- <-; split_and!; try done; by exists 0].
  apply open_Some in Eo as [Hin _].
  destruct HI as [I1 I2 I3 I4 I5 I6 I7].
  destruct (I3 n) as (k & Hk & Hc & Hl). destruct (Hl _ _ _ Hin) as (b & i & Hi & ->).
  destruct (trailer_split b i) as (E1 & E2 & E3); [lia|]. rewrite E1, E2, E3 in H.
  destruct (on_pid_received_spec (rcv_ara s n) (acc n) i (I5 n)) as (ok & a' & Ea & _ & Ha & Hf & _); [lia|].
  rewrite Ea in H. destruct ok; simplify_eq; cbn [snd_ara snd_ctr log]; (split; [done|]; split; [done|]; split; [done|]).
  - exists i. constructor; cbn [snd_ara snd_ctr log rcv_ara]; try done.
    + intros x. destruct (decide (x = n)) as [->|]; [by rewrite !fn_lookup_insert|by rewrite !fn_lookup_insert_ne].
    + intros x q. destruct (decide (x = n)) as [->|]; [|rewrite fn_lookup_insert_ne by done; apply I6].
      rewrite fn_lookup_insert. rewrite elem_of_app, elem_of_list_singleton. intros [?| ->]; [by apply I6|]. by eexists _, _, _.
    + destruct n as [|n]; [|by rewrite fn_lookup_insert_ne]. rewrite fn_lookup_insert. apply Forall2_app; [done|].
      constructor; [|constructor]. destruct (I4 _ _ _ Hin) as (j & p' & Hj & Ej).
      assert (N.of_nat (length sents) < 2 ^ 64) as Hlen by lia.
      pose proof (lookup_lt_Some _ _ _ Hj) as Lj.
      apply (f_equal (fun l => (take (length l - 8) l, be_dec (drop (length l - 8) l)))) in Ej.
      destruct (trailer_split p' (N.of_nat j)) as (_ & F2 & F3); [lia|].
      destruct (trailer_split b i) as (_ & G2 & G3); [lia|]. rewrite F2, F3, G2, G3 in Ej. simplify_eq. by rewrite Nat2N.id.
  - exists 0. rewrite Hf by done. constructor; cbn [snd_ara snd_ctr log rcv_ara]; try done.
    intros x. destruct (decide (x = n)) as [->|]; [by rewrite fn_lookup_insert|by rewrite fn_lookup_insert_ne].
Qed.

Lemma down_None h s l : foldl (validate_down h) (s, None) l = (s, None).
Proof. induction l; cbn; done. Qed.

Lemma rev_seq_S k : reverse (seq 0 (S k)) = k :: reverse (seq 0 k).
Proof. rewrite seq_S, reverse_app. done. Qed.

Lemma down_inv T h k : forall s sents acc dels body s' r,
  Inv T s sents acc dels -> T < 2 ^ 64 ->
  foldl (validate_down h) (s, Some body) (reverse (seq 0 (S k))) = (s', r) ->
  exists acc', Inv T s' sents acc' (match r with Some p => dels ++ [(h, p)] | None => dels end).
Proof.
  induction k as [|k IH]; intros s sents acc dels body s' r HI HT; rewrite rev_seq_S; cbn [foldl Protect_Model.validate_down].
  - cbn. intros H. destruct (validate_layer h s body 0) as [s1 r1] eqn:E. simplify_eq.
    destruct (layer_inv _ _ _ _ _ _ _ _ _ _ HI HT E) as (_ & _ & _ & q & HI'). destruct r; eexists; exact HI'.
  - destruct (validate_layer h s body (S k)) as [s1 r1] eqn:E.
    destruct (layer_inv _ _ _ _ _ _ _ _ _ _ HI HT E) as (_ & _ & _ & q & HI'). destruct r1 as [b|].
    + intros H. by apply (IH _ _ _ _ _ _ _ HI' HT H).
    + rewrite down_None. intros H. simplify_eq. by exists acc.
Qed.

Lemma arrive_inv T s sents acc dels lvl h body s' r :
  Inv T s sents acc dels -> T < 2 ^ 64 -> validate s lvl h body = (s', r) ->
  exists acc', Inv T s' sents acc' (match r with Some p => dels ++ [(h, p)] | None => dels end).
Proof.
  intros HI HT H. unfold Protect_Model.validate in H. destruct (verify_level count lvl) as [idx|]; [|simplify_eq; by exists acc].
  by eapply down_inv.
Qed.

Lemma inv_weaken T T' s sents acc dels : T <= T' -> Inv T s sents acc dels -> Inv T' s sents acc dels.
Proof. intros HT []; constructor; try done. lia. Qed.

Lemma run_inv ops : forall T s sents acc dels,
  one_epoch ops -> Inv T s sents acc dels -> T + N.of_nat (length ops) <= 2 ^ 64 ->
  exists acc', Inv (T + N.of_nat (length ops)) (run s ops).1
     (sents ++ sent (zip ops (run s ops).2)) acc' (dels ++ delivered (zip ops (run s ops).2)).
Proof.
  induction ops as [|o ops IH]; intros T s sents acc dels Ho HI HT; cbn [Protect_Model.run].
  - cbn. rewrite !app_nil_r, N.add_0_r. by exists acc.
  - inversion Ho as [|? ? H1 H2]; subst. cbn [length] in HT. destruct (step s o) as [s1 r] eqn:E.
    destruct (run s1 ops) as [s2 rs] eqn:E2. cbn [fst snd zip zip_with].
    assert (T + N.of_nat (length (o :: ops)) = (T + 1) + N.of_nat (length ops)) as -> by (cbn [length]; lia).
    destruct o as [lvl h p|lvl h body| |]; try done; cbn [Protect_Model.step] in E.
    + pose proof (send_inv _ _ _ _ _ _ _ _ _ _ HI ltac:(lia) E) as HI'.
      destruct (IH (T + 1) s1 _ _ _ H2 HI' ltac:(lia)) as [acc' HI2]. rewrite E2 in HI2. cbn [fst snd] in HI2. exists acc'.
      destruct r; cbn [sent delivered]; [|done]. by rewrite <- app_assoc in HI2.
    + destruct (arrive_inv _ _ _ _ _ _ _ _ _ _ HI ltac:(lia) E) as [acc1 HI'].
      apply (inv_weaken _ (T + 1)) in HI'; [|lia].
      destruct (IH (T + 1) s1 _ _ _ H2 HI' ltac:(lia)) as [acc' HI2]. rewrite E2 in HI2. cbn [fst snd] in HI2. exists acc'.
      destruct r; cbn [sent delivered]; [|done]. by rewrite <- app_assoc in HI2.
Qed.

Lemma init_inv ctr0 : Inv 0 (init ctr0) [] (fun _ => []) [].
Proof.
  constructor; cbn; try done; try lia.
  - intros n. exists 0. split; [lia|]. split; [done|]. intros ? ? ? H. by apply not_elem_of_nil in H.
  - intros ? ? ? H. by apply not_elem_of_nil in H.
  - intros n. apply inv_init.
  - intros n q H. by apply not_elem_of_nil in H.
Qed.

Lemma at_most_once ctr0 ops :
  one_epoch ops -> N.of_nat (length ops) <= 2 ^ 64 ->
  let h := zip ops (run (init ctr0) ops).2 in delivered h ⊆+ sent h.
Proof.
  intros Ho Hl. destruct (run_inv ops 0 _ _ _ _ Ho (init_inv ctr0) ltac:(lia)) as [acc HI]. cbn [app] in HI.
  pose proof (i_dels _ _ _ _ _ HI) as Hf. pose proof (inv_nodup _ _ (i_ara _ _ _ _ _ HI O)) as Hn.
  apply (submseteq_of_indices _ _ (N.to_nat <$> acc O)).
  - apply NoDup_fmap_2; [|done]. intros x y. lia.
  - apply Forall2_fmap_l. done.
Qed.

(** Forgeries. *)
Lemma forged_no_effect s lvl h body :
  (forall idx, verify_level count lvl = Some idx ->
     (8 <= length body)%nat ->
     forall nonce m, (idx, nonce, h, m) ∈ log s -> enc idx nonce h m <> take (length body - 8) body) ->
  validate s lvl h body = (s, None).
Proof.
  intros H. unfold Protect_Model.validate. destruct (verify_level count lvl) as [idx|]; [|done].
  rewrite rev_seq_S. cbn [foldl Protect_Model.validate_down]. unfold Protect_Model.validate_layer.
  destruct (length body <? 8)%nat eqn:E; [apply down_None|].
  destruct (open _ _ _ _ _) as [m|] eqn:Eo; [|apply down_None]. exfalso. apply open_Some in Eo as [Hin Hc].
  by eapply (H idx); [done|lia|exact Hin|].
Qed.

Lemma reject_level0 s h body s' :
  validate s (Some 0) h body = (s', None) ->
  snd_ara s' = snd_ara s /\ snd_ctr s' = snd_ctr s /\ log s' = log s /\ forall n, rcv_ara s' n = rcv_ara s n.
Proof.
  unfold Protect_Model.validate. destruct (verify_level count (Some 0)) as [idx|] eqn:E; [|intros H; by simplify_eq].
  assert (idx = 0%nat) as ->. { unfold verify_level in E. repeat case_match; simplify_eq; done. }
  cbn. unfold Protect_Model.validate_layer. intros H.
  repeat case_match; simplify_eq; try done. cbn. repeat (split; [done|]). intros n.
  destruct (decide (n = 0%nat)) as [->|]; [|by rewrite fn_lookup_insert_ne]. rewrite fn_lookup_insert.
  match goal with H : on_pid_received _ _ = _ |- _ => unfold on_pid_received in H; repeat case_match; by simplify_eq end.
Qed.

(** ** Nonce counters stay 64-bit *)
Lemma prot_upto_ctr h s p k : (forall n, snd_ctr s n < 2 ^ 64) -> forall n, snd_ctr (prot_upto h s p k).1 n < 2 ^ 64.
Proof.
  intros Hs. induction k as [|k IH]; intros n; [apply Hs|]. rewrite prot_upto_S. destruct (prot_upto h s p k) as [s1 b1].
  unfold Protect_Model.protect_layer. cbn [get_next_pid fst snd_ctr]. destruct (decide (n = k)) as [->|].
  - rewrite fn_lookup_insert. apply N.mod_lt. done.
  - rewrite fn_lookup_insert_ne by done. apply IH.
Qed.

Lemma layer_frame h s body n : snd_ara (validate_layer h s body n).1 = snd_ara s /\ snd_ctr (validate_layer h s body n).1 = snd_ctr s /\
  log (validate_layer h s body n).1 = log s.
Proof. unfold Protect_Model.validate_layer. repeat case_match; done. Qed.

Lemma down_frame h l : forall s r, 
  let s' := (foldl (validate_down h) (s, r) l).1 in snd_ara s' = snd_ara s /\ snd_ctr s' = snd_ctr s /\ log s' = log s.
Proof.
  induction l as [|n l IH]; intros s r; [done|]. cbn [foldl]. destruct r as [b|]; cbn [Protect_Model.validate_down].
  - pose proof (layer_frame h s b n) as (H1 & H2 & H3). destruct (validate_layer h s b n) as [s1 r1]. cbn [fst] in *.
    destruct (IH s1 r1) as (G1 & G2 & G3). cbn in *. rewrite G1, G2, G3. done.
  - apply IH.
Qed.

Lemma validate_frame s lvl h b : let s' := (validate s lvl h b).1 in snd_ara s' = snd_ara s /\ snd_ctr s' = snd_ctr s /\ log s' = log s.
Proof. unfold Protect_Model.validate. destruct (verify_level count lvl); [apply down_frame|done]. Qed.

Lemma step_ctr s o : (forall n, snd_ctr s n < 2 ^ 64) -> forall n, snd_ctr (step s o).1 n < 2 ^ 64.
Proof.
  intros Hs. destruct o as [lvl h p|lvl h b| |]; cbn [Protect_Model.step]; try done.
  - unfold Protect_Model.protect. destruct (verify_level count lvl) as [idx|]; [|done].
    fold (prot_upto h s p (S idx)). pose proof (prot_upto_ctr h s p (S idx) Hs) as H. by destruct (prot_upto h s p (S idx)).
  - intros n. pose proof (validate_frame s lvl h b) as (_ & Hv & _). rewrite Hv. apply Hs.
Qed.

Lemma run_ctr ops : forall s, (forall n, snd_ctr s n < 2 ^ 64) -> forall n, snd_ctr (run s ops).1 n < 2 ^ 64.
Proof.
  induction ops as [|o ops IH]; intros s Hs n; [apply Hs|]. cbn [Protect_Model.run].
  pose proof (step_ctr s o Hs) as H. destruct (step s o) as [s1 r]. specialize (IH s1 H n). by destruct (run s1 ops).
Qed.

(** ** Delivered was sent, also across refreshes *)
Definition J (s : state) (sents : list (list N * list N)) : Prop :=
  (forall n, ara_counter_out (snd_ara s n) < 2 ^ 64) /\
  forall nonce h m, (O, nonce, h, m) ∈ log s -> exists p i, (h, p) ∈ sents /\ m = p ++ be_enc 8 i /\ i < 2 ^ 64.

Lemma down_J h k : forall s sents body s' r,
  J s sents -> foldl (validate_down h) (s, Some body) (reverse (seq 0 (S k))) = (s', r) ->
  forall p, r = Some p -> (h, p) ∈ sents.
Proof.
  induction k as [|k IH]; intros s sents body s' r HJ; rewrite rev_seq_S; cbn [foldl Protect_Model.validate_down].
  - cbn. intros H p ->. unfold Protect_Model.validate_layer in H.
    destruct (length body <? 8)%nat; [done|]. destruct (open _ _ _ _ _) as [m|] eqn:Eo; [|done]. apply open_Some in Eo as [Hin _].
    destruct HJ as [_ HJ]. destruct (HJ _ _ _ Hin) as (q & i & Hq & -> & Hi). destruct (trailer_split q i Hi) as (E1 & E2 & E3).
    rewrite E1, E2, E3 in H. destruct (on_pid_received _ _) as [[] ?]; by simplify_eq.
  - pose proof (layer_frame h s body (S k)) as (H1 & H2 & H3). destruct (validate_layer h s body (S k)) as [s1 r1]. cbn [fst] in *.
    destruct r1 as [b|]; [|rewrite down_None; intros; by simplify_eq]. intros H. apply (IH s1 sents b s' r); [|done].
    destruct HJ as [J1 J2]. split; [by rewrite H1|by rewrite H3].
Qed.

Lemma run_J ops : forall s sents, J s sents ->
  forall d, d ∈ delivered (zip ops (run s ops).2) -> d ∈ sents ++ sent (zip ops (run s ops).2).
Proof.
  induction ops as [|o ops IH]; intros s sents HJ d; cbn [Protect_Model.run].
  { cbn. intros Hd. by apply not_elem_of_nil in Hd. }
  destruct (step s o) as [s1 r] eqn:E. specialize (IH s1). destruct (run s1 ops) as [s2 rs]. cbn [snd zip zip_with] in *.
  destruct o as [lvl h p|lvl h b| |]; cbn [Protect_Model.step] in E; cbn [delivered sent].
  - assert (J s1 (match r with Some _ => sents ++ [(h, p)] | None => sents end)) as HJ1.
    { unfold Protect_Model.protect in E. destruct (verify_level count lvl) as [idx|]; [|by simplify_eq].
      fold (prot_upto h s p (S idx)) in E. pose proof (prot_upto_facts h s p (S idx)) as HF.
      destruct (prot_upto h s p (S idx)) as [s' body]. simplify_eq. destruct HF as (_ & F2 & F3 & F4 & _). destruct HJ as [J1 J2]. split.
      - intros n. destruct (decide (n < S idx)%nat); [rewrite F3 by lia; apply N.mod_lt; done|rewrite F2 by lia; apply J1].
      - intros nonce hd m [Hin|(_ & _ & -> & ->)]%F4.
        + destruct (J2 _ _ _ Hin) as (q & i & Hq & ?). exists q, i. split; [|done]. apply elem_of_app. by left.
        + exists p, (ara_counter_out (snd_ara s 0)). split; [apply elem_of_app; right; by left|]. split; [done|apply J1]. }
    destruct r as [x|]; intros Hd; specialize (IH _ HJ1 d Hd); [|done]. by rewrite <- app_assoc in IH.
  - assert (J s1 sents) as HJ1.
    { pose proof (validate_frame s lvl h b) as (G1 & _ & G3). rewrite E in G1, G3. cbn in *. destruct HJ. split; [by rewrite G1|by rewrite G3]. }
    specialize (IH _ HJ1 d). destruct r as [x|]; [|done]. intros [->|Hd]%elem_of_cons; [|auto].
    apply elem_of_app. left. unfold Protect_Model.validate in E. destruct (verify_level count lvl) as [idx|]; [|done]. by eapply (down_J h idx s sents b s1 (Some x)); [| |reflexivity].
  - simplify_eq. apply IH. destruct HJ as [J1 J2]. split; [|done]. intros n. cbn. lia.
  - simplify_eq. apply IH. destruct HJ as [J1 J2]. by split.
Qed.

Lemma run_delivered_sent ctr0 ops d :
  let h := zip ops (run (init ctr0) ops).2 in d ∈ delivered h -> d ∈ sent h.
Proof.
  apply (run_J ops (init ctr0) []). split; [intros n; cbn; lia|]. intros ? ? ? H. by apply not_elem_of_nil in H.
Qed.

(** ** C05 *)
Hypothesis enc_inj : forall n nonce h m m', enc n nonce h m = enc n nonce h m' -> m = m'.

Lemma down_roundtrip T h p s sents acc dels k : forall s2,
  Inv T s sents acc dels -> T < 2 ^ 64 -> (forall n, snd_ctr s n < 2 ^ 64) ->
  (forall e, e ∈ log (prot_upto h s p k).1 -> e ∈ log s2) ->
  (forall n, (n < k)%nat -> rcv_ara s2 n = rcv_ara s n) ->
  (foldl (validate_down h) (s2, Some (prot_upto h s p k).2) (reverse (seq 0 k))).2 = Some p.
Proof.
  induction k as [|k IH]; intros s2 HI HT Hctr Hlog Hrcv; [done|].
  rewrite rev_seq_S. cbn [foldl Protect_Model.validate_down].
  pose proof (prot_upto_facts h s p k) as HF. pose proof (prot_upto_facts h s p (S k)) as HFS.
  rewrite prot_upto_S in Hlog, HFS |- *. destruct (prot_upto h s p k) as [s1 b1] eqn:E1.
  destruct HF as (_ & F2 & _ & _ & F5).
  destruct (protect_layer h (s1, b1) k) as [sS bS] eqn:ES. destruct HFS as (_ & _ & _ & FS & _).
  unfold Protect_Model.protect_layer in ES. cbn [get_next_pid] in ES. rewrite F2, F5 in ES by done. simplify_eq.
  cbn [snd fst] in *. unfold Protect_Model.validate_layer at 1.
  destruct (trailer_split (enc k (nonce_of k (snd_ctr s k)) h (b1 ++ be_enc 8 (ara_counter_out (snd_ara s k)))) (snd_ctr s k)) as (-> & -> & ->).
  { apply Hctr. }
  rewrite open_complete; [|done|apply Hlog; cbn; left].
  destruct HI as [I1 I2 I3 I4 I5 I6 I7]. destruct (I3 k) as (c & Hc1 & Hc2 & Hc3).
  rewrite (mod_small_le c T) in Hc2 by lia.
  destruct (trailer_split b1 (ara_counter_out (snd_ara s k))) as (-> & -> & ->). { rewrite Hc2. lia. }
  rewrite Hrcv by lia. rewrite Hc2.
  destruct (on_pid_received_spec (rcv_ara s k) (acc k) c (I5 k)) as (ok & a' & Ea & Hok & _); [lia|].
  rewrite Ea. assert (forall q, q ∈ acc k -> q < c) as Hq.
  { intros q Hin. destruct (I6 _ _ Hin) as (no & hd & b & Hlg). destruct (Hc3 _ _ _ Hlg) as (b' & i & Hi & Eb).
    pose proof (inv_lt _ _ (I5 k) _ Hin) as Hq64.
    apply (f_equal (fun l => be_dec (drop (length l - 8) l))) in Eb.
    destruct (trailer_split b q Hq64) as (_ & _ & G1). destruct (trailer_split b' i) as (_ & _ & G2); [lia|].
    rewrite G1, G2 in Eb. lia. }
  assert (ok = true) as ->.
  { apply Hok. split; [intros Hin; specialize (Hq _ Hin); lia|]. intros q Hin. specialize (Hq _ Hin). lia. }
  apply IH; try done.

  - intros e He. cbn [log]. apply Hlog. cbn. right. exact He.
  - intros n Hn. cbn [rcv_ara]. rewrite fn_lookup_insert_ne by lia. apply Hrcv. lia.
Qed.
End Protect.
