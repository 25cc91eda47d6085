From Coq Require Import ZifyBool ZifyNat ZifyN.
From stdpp Require Import prelude.
From Verif Require Import Types_Model KeySched_Model KeySched_Spec.
Local Open Scope N_scope.

Section KS.
Context (P : prims) (HP : prims_ok P).

Record linked (cA cB : pqc) (p : crypto_params) : Prop := {
  lk_pA : pq_params cA = p; lk_pB : pq_params cB = p;
  lk_ch : exists ch, pq_chain cA = Some ch /\ pq_chain cB = Some ch;
  lk_sA : exists s, kx_ss (pq_kex cA) = Some s; lk_sB : exists s, kx_ss (pq_kex cB) = Some s;
  lk_ab : talks P cA cB; lk_ba : talks P cB cA
}.

Lemma pq_pair o psks sk ssk skb sskb coins :
  validate_crypto_params (co_params o) = true ->
  exists cA cB t cA', pq_new_alice o sk ssk = Some cA /\
    pq_new_bob P o (pq_a2b P cA) psks skb sskb coins = Some cB /\
    pq_b2a P cB = Some t /\ pq_on_ct P cA t psks = Some cA' /\ linked cA' cB (co_params o).
Proof using HP.
  destruct o as [[enc kem sg] ch]. cbn [co_params co_chain cp_sig cp_enc]. intros Hv.
  pose proof (kem_ok _ HP sk coins) as HK.
  destruct (kem_encap P (kem_pk P sk) coins) as [ct ss] eqn:He. cbn [fst snd] in HK.
  pose (dk := derive_keys P ch ss psks); assert (Heqdk : dk = derive_keys P ch ss psks) by reflexivity; clearbody dk.
  assert (Hsg : forall sk m, sg_verify P (sg_pk P sk) m (sg_sign P sk m) = true) by apply HP.
  unfold pq_new_alice, pq_new_bob, pq_a2b, pq_on_ct, pq_b2a, keys_to_aead_store.
  cbn [co_params co_chain]. rewrite Hv. cbn [negb cp_sig cp_enc].
  exists (mk_pqc (mk_cp enc kem sg) (mk_kex None sk None None) (match sg with SigNone => None | _ => Some (mk_sig ssk None) end) ch None Alice).
  destruct kem, sg, enc; try discriminate Hv.
  all: cbn [pq_kex kx_sk pq_sig ab_pk ab_sig sg_sk]; rewrite He, ?Hsg; cbn [negb co_chain]; rewrite <- ?Heqdk;
    do 3 eexists; split; [reflexivity|]; split; [cbn [pq_kex kx_sk pq_sig ab_pk ab_sig sg_sk]; rewrite ?Hsg; reflexivity|];
    split; [cbn [kx_ct pq_kex pq_sig]; reflexivity|].
  all: cbn [ba_sig ba_ct ba_pk pq_sig pq_kex kx_sk pq_chain pq_params pq_side cp_enc negb kx_ct sg_sk]; rewrite ?Hsg; cbn [negb];
    rewrite HK, <- ?Heqdk; split; [done|].
  all: split; cbn [pq_params pq_chain pq_kex kx_ss]; eauto.
  all: intros n a m; unfold pq_encrypt, pq_decrypt, dec_key, enc_key; cbn [pq_params cp_enc pq_keys pq_side mod_encrypt mod_decrypt kx_remote sg_remote kx_sk sg_sk].
  all: eexists; split; [done|]; rewrite ?(hy_ok _ HP), ?(ae_ok _ HP); done.
Qed.

Definition lmatch (la lb : option ebank * pqc) (p : crypto_params) : Prop :=
  (exists ba bb, fst la = Some ba /\ fst lb = Some bb /\ same_bank ba bb) /\ linked (snd la) (snd lb) p.

(** the whole exchange layer by layer *)
Lemma layers_ok os psks ra rb cidA cidB ver nonce i :
  Forall (fun o => validate_crypto_params (co_params o) = true) os ->
  exists lA txs lB bts cts lA1 lA2,
    alice_layers i os ra = Some lA /\ txs = map (fun l => pq_a2b P (snd l)) lA /\
    bob_layers P i txs os cidB ver psks rb = lB /\ length lB = length os /\
    opt_all (map (fun l => pq_b2a P (snd l)) lB) = Some bts /\
    opt_all (map (enc_bank P nonce) lB) = Some cts /\
    on_cts P lA bts psks = Some lA1 /\
    open_banks P nonce cidA lA1 cts = Some lA2 /\
    exists fA fB, finish_layers ver cidA lA2 = Some fA /\ finish_layers ver cidB lB = Some fB /\
      Forall2 (layers_match P) fA fB /\
      map (fun l => pq_params (snd l)) fA = map co_params os /\ map (fun l => pq_params (snd l)) fB = map co_params os /\
      length lA2 = length os /\ Forall (fun l => exists b, fst l = Some b /\ eb_version b = ver) lA2.
Proof using HP.
  revert i. induction os as [|o os IH]; intros i Hv.
  - exists [], [], [], [], [], [], []. cbn. split_and!; try done. exists [], []. split_and!; try done; constructor.
  - inversion Hv as [|? ? Ho Hos]; subst.
    destruct (IH (S i) Hos) as (lA & txs & lB & bts & cts & lA1 & lA2 & E1 & E2 & E3 & E4 & E5 & E6 & E7 & E8 & fA & fB & F1 & F2 & F3 & F4 & F5 & F6 & F7).
    destruct (pq_pair o psks (ra_sk ra (Some i)) (ra_ssk ra (Some i)) (rb_sk rb (Some i)) (rb_ssk rb (Some i)) (rb_coins rb (Some i)) Ho)
      as (cA & cB & t & cA' & G1 & G2 & G3 & G4 & G5).
    set (b := mk_eb cidB ver (rb_bank rb (Some i))).
    destruct (lk_ba _ _ _ G5 nonce [] (eb_ser P b)) as (ct & C1 & C2).
    set (ba := mk_eb cidA ver (rb_bank rb (Some i))).
    exists ((None, cA) :: lA), (pq_a2b P cA :: txs), ((Some b, cB) :: lB), (t :: bts), (ct :: cts), ((None, cA') :: lA1), ((Some ba, cA') :: lA2).
    split_and!.
    + cbn [alice_layers]. by rewrite G1, E1.
    + cbn [map snd]. by subst txs.
    + cbn [bob_layers]. rewrite G2, E3. done.
    + cbn [length]. by rewrite E4.
    + cbn [map opt_all snd]. by rewrite G3, E5.
    + cbn [map opt_all]. unfold enc_bank at 1. cbn [fst snd]. by rewrite C1, E6.
    + cbn [on_cts snd fst]. by rewrite G4, E7.
    + cbn [open_banks snd]. unfold open_bank. rewrite C2, (eb_ok _ HP), E8. done.
    + exists ((ba, cA') :: fA), ((b, cB) :: fB).
      destruct (lk_sA _ _ _ G5) as [sA HsA], (lk_sB _ _ _ G5) as [sB HsB].
      split_and!.
      * cbn [finish_layers]. rewrite HsA, F1. cbn [eb_version eb_cid ba]. by rewrite !N.eqb_refl.
      * cbn [finish_layers]. rewrite HsB, F2. cbn [eb_version eb_cid b]. by rewrite !N.eqb_refl.
      * constructor; [|done]. destruct G5. unfold layers_match. cbn [fst snd]. split_and!; try done.
      * cbn [map snd]. f_equal; [|done]. apply G5.
      * cbn [map snd]. f_equal; [|done]. apply G5.
      * cbn [length]. by rewrite F6.
      * constructor; [|done]. exists ba. done.
Qed.

Lemma alice_layers_length i os ra lA : alice_layers i os ra = Some lA -> length lA = length os.
Proof.
  revert i lA; induction os as [|o os IH]; intros i lA H; cbn [alice_layers] in H.
  - injection H as <-. done.
  - destruct (pq_new_alice _ _ _); [|done]. destruct (alice_layers (S i) os ra) eqn:E; [|done].
    injection H as <-. cbn [length]. f_equal. eauto.
Qed.

Lemma exchange_ok os psks ra rb cidA cidB ver :
  Forall (fun o => validate_crypto_params (co_params o) = true) os ->
  (0 < length os < 255)%nat ->
  exists x y, exchange P os os cidA cidB ver psks psks ra rb = Some (x, y) /\
    ends_match P x y /\ map (fun l => pq_params (snd l)) (rt_layers x) = map co_params os /\
    map (fun l => pq_params (snd l)) (rt_layers y) = map co_params os /\
    rt_version x = ver /\ rt_version y = ver /\ rt_cid x = cidA /\ rt_cid y = cidB.
Proof using HP.
  intros Hv Hlen.
  destruct (layers_ok os psks ra rb cidA cidB ver (ra_nonce_msg ra) 0 Hv)
    as (lA & txs & lB & bts & cts & lA1 & lA2 & E1 & E2 & E3 & E4 & E5 & E6 & E7 & E8 & fA & fB & F1 & F2 & F3 & F4 & F5 & F6 & F7).
  destruct os as [|o os']; [cbn in Hlen; lia|]. remember (o :: os') as os eqn:Hos.
  assert (Ho : validate_crypto_params (co_params (mk_opts (co_params o) None)) = true).
  { subst os. inversion Hv; subst. done. }
  destruct (pq_pair (mk_opts (co_params o) None) psks (ra_sk ra None) (ra_ssk ra None) (rb_sk rb None) (rb_ssk rb None) (rb_coins rb None) Ho)
      as (cA & cB & t & cA' & G1 & G2 & G3 & G4 & G5).
  set (b := mk_eb cidB ver (rb_bank rb None)). set (ba := mk_eb cidA ver (rb_bank rb None)).
  destruct (lk_ba _ _ _ G5 (ra_nonce_scr ra) [] (eb_ser P b)) as (ct & C1 & C2).
  assert (HA : new_alice os cidA ver ra = Some (mk_con (co_params o) lA (None, cA) (ra_nonce_msg ra) (ra_nonce_scr ra) cidA ver (N.of_nat (length os - 1)))).
  { unfold new_alice. rewrite Hos. rewrite <- Hos.
    replace (255 <=? length os)%nat with false by (symmetry; apply Nat.leb_gt; lia).
    by rewrite E1, G1. }
  unfold exchange. rewrite HA. unfold stage0_alice. cbn [cn_layers cn_scr snd cn_params cn_nonce_msg cn_nonce_scr cn_level cn_cid cn_version].
  rewrite <- E2. unfold new_bob. cbn [abt_txs abt_version abt_level abt_params abt_scr abt_nonce_msg abt_nonce_scr].
  rewrite E3, E4.
  replace (N.of_nat (length os) =? N.of_nat (length os - 1) + 1) with true by (symmetry; apply N.eqb_eq; lia).
  cbn [negb]. rewrite G2. unfold stage0_bob. cbn [cn_layers cn_scr snd cn_nonce_msg cn_nonce_scr].
  rewrite E5, G3, E6. unfold enc_bank. cbn [fst snd]. fold b. rewrite C1.
  unfold stage1_alice. cbn [cn_layers bat_txs bat_banks bat_scr bat_scr_bank cn_scr snd cn_nonce_msg cn_nonce_scr cn_cid cn_version cn_level cn_params].
  rewrite E7, E8, G4. unfold open_bank at 1. rewrite C2, (eb_ok _ HP). cbn [eb_version eb_bytes b]. fold ba.
  destruct lA2 as [|[ob0 c0] lA2']; [exfalso; subst os; cbn in F6; lia|].
  pose proof F7 as F7'. inversion F7' as [|? ? (b0 & Hb0 & Hver) ?]; subst. cbn [fst] in Hb0. subst ob0.
  rewrite N.eqb_refl. unfold finish. cbn [cn_scr cn_layers].
  destruct (lk_sA _ _ _ G5) as [sA HsA], (lk_sB _ _ _ G5) as [sB HsB].
  rewrite HsA, HsB. cbn [eb_version eb_cid ba b]. rewrite F1, F2.
  eexists _, _. split; [done|]. cbn [rt_layers rt_scr]. split_and!; try done.
  cbn [rt_scr]. destruct G5. unfold layers_match. cbn [fst snd]. split_and!; done.
Qed.

Lemma next_opts_ok r1 r2 ps :
  ends_match P r1 r2 -> map (fun l => pq_params (snd l)) (rt_layers r1) = ps ->
  map (fun l => pq_params (snd l)) (rt_layers r2) = ps ->
  exists os, next_opts P r1 = Some os /\ next_opts P r2 = Some os /\ map co_params os = ps.
Proof.
  intros [Hl _] H1 H2. unfold next_opts.
  assert (exists chs, opt_all (map (fun l => pq_chain (snd l)) (rt_layers r1)) = Some chs /\
            opt_all (map (fun l => pq_chain (snd l)) (rt_layers r2)) = Some chs) as (chs & A1 & A2).
  { clear H1 H2. induction Hl as [|x y l1 l2 Hxy _ IH]; [by exists []|].
    destruct IH as (chs & I1 & I2), Hxy as (_ & _ & _ & ch & C1 & C2).
    exists (ch :: chs). cbn [map opt_all]. by rewrite C1, C2, I1, I2. }
  rewrite A1, A2. remember (sha256 P (concat (map ch_chain chs))) as meta eqn:Em. clear A1 A2 Em chs.
  revert ps H1 H2. induction Hl as [|x y l1 l2 Hxy _ IH]; intros ps H1 H2; [exists []; cbn in *; by subst|].
  cbn [map] in H1, H2. destruct ps as [|p ps]; [done|].
  injection H1 as P1 P2. injection H2 as Q1 Q2.
  destruct (IH ps P2 Q2) as (os & I1 & I2 & I3), Hxy as (_ & _ & _ & ch & C1 & C2).
  eexists. cbn [map opt_all]. rewrite C1, C2, I1, I2, P1, Q1. split; [done|]. split; [done|].
  cbn [map co_params]. by rewrite I3.
Qed.

Lemma ends_match_sym r1 r2 : ends_match P r1 r2 -> ends_match P r2 r1.
Proof.
  intros [H1 H2]. split; [apply Forall2_flip; eapply Forall2_impl; [exact H1|]|].
  - intros x y ([? ?] & ? & ? & ch & ? & ?). unfold flip, layers_match, same_bank. split_and!; eauto.
  - destruct H2 as ([? ?] & ? & ? & ch & ? & ?). unfold layers_match, same_bank. split_and!; eauto.
Qed.

Definition agreed (r : round) : Prop := rd_psk1 r = rd_psk2 r.

Lemma rekeys_ok p n rs : forall r1 r2,
  validate_crypto_params p = true -> (0 < n < 255)%nat ->
  ends_match P r1 r2 -> map (fun l => pq_params (snd l)) (rt_layers r1) = repeat p n ->
  map (fun l => pq_params (snd l)) (rt_layers r2) = repeat p n ->
  rt_version r1 = rt_version r2 -> Forall agreed rs -> rt_version r1 < 2 ^ 32 ->
  exists x y, rekeys P (r1, r2) rs = Some (x, y) /\ ends_match P x y /\ length (rt_layers x) = n /\
    rt_version x = (rt_version r1 + N.of_nat (length rs)) mod 2 ^ 32 /\ rt_version y = rt_version x /\
    rt_cid x = rt_cid r1 /\ rt_cid y = rt_cid r2.
Proof using HP.
  induction rs as [|r rs IH]; intros r1 r2 Hv Hn Hm H1 H2 Hver Hag Hlt.
  - exists r1, r2. split_and!; try done.
    + rewrite <- (map_length (fun l => pq_params (snd l))), H1. apply repeat_length.
    + cbn [length]. rewrite N.add_0_r, N.mod_small; done.
  - inversion Hag as [|? ? Ha Hag']; subst. cbn [rekeys]. unfold rekey.
    destruct (next_opts_ok r1 r2 (repeat p n) Hm H1 H2) as (os & O1 & O2 & O3). rewrite O1, O2.
    assert (Hos : Forall (fun o => validate_crypto_params (co_params o) = true) os).
    { apply Forall_forall. intros o Ho.
      assert (In (co_params o) (repeat p n)) as Hin by (rewrite <- O3; apply in_map; by apply elem_of_list_In).
      apply repeat_spec in Hin. by rewrite Hin. }
    assert (Hlen : length os = n) by (rewrite <- (map_length co_params), O3; apply repeat_length).
    assert (Hw : forall v, (v + 1) mod 2 ^ 32 < 2 ^ 32) by (intros; apply N.mod_lt; lia).
    assert (Hacc : ((rt_version r1 + 1) mod 2 ^ 32 + N.of_nat (length rs)) mod 2 ^ 32 = (rt_version r1 + N.of_nat (length (r :: rs))) mod 2 ^ 32).
    { rewrite N.add_mod_idemp_l by lia. f_equal. cbn [length]. lia. }
    destruct (rd_by_first r).
    + destruct (exchange_ok os (rd_psk1 r) (rd_ra r) (rd_rb r) (rt_cid r1) (rt_cid r2) ((rt_version r1 + 1) mod 2 ^ 32) Hos ltac:(lia))
        as (x & y & E & M & Mx & My & Vx & Vy & Cx & Cy).
      rewrite <- Ha, E. rewrite O3 in Mx, My.
      destruct (IH x y Hv Hn M Mx My ltac:(congruence) Hag' ltac:(rewrite Vx; apply Hw)) as (x' & y' & I1 & I2 & I3 & I4 & I5 & I6 & I7).
      exists x', y'. split_and!; try done; [|congruence..]. by rewrite I4, Vx.
    + destruct (exchange_ok os (rd_psk1 r) (rd_ra r) (rd_rb r) (rt_cid r2) (rt_cid r1) ((rt_version r2 + 1) mod 2 ^ 32) Hos ltac:(lia))
        as (x & y & E & M & Mx & My & Vx & Vy & Cx & Cy).
      rewrite <- Ha, E. rewrite O3 in Mx, My.
      destruct (IH y x Hv Hn (ends_match_sym _ _ M) My Mx ltac:(congruence) Hag' ltac:(rewrite Vy; apply Hw)) as (x' & y' & I1 & I2 & I3 & I4 & I5 & I6 & I7).
      exists x', y'. split_and!; try done; [|congruence..]. by rewrite I4, Vy, <- Hver.
Qed.

Lemma run_ok p level cid1 cid2 r0 rs :
  validate_crypto_params p = true -> level < 254 -> Forall agreed (r0 :: rs) ->
  exists r1 r2, run_session P p level cid1 cid2 r0 rs = Some (r1, r2) /\ ends_match P r1 r2 /\
    N.of_nat (length (rt_layers r1)) = level + 1 /\
    rt_version r1 = N.of_nat (length rs) mod 2 ^ 32 /\ rt_version r2 = rt_version r1 /\
    rt_cid r1 = cid1 /\ rt_cid r2 = cid2.
Proof using HP.
  intros Hv Hl Hag. inversion Hag as [|? ? Ha Hag']; subst. unfold run_session, first_exchange.
  remember (N.to_nat level + 1)%nat as n eqn:En. assert (Hn : (0 < n < 255)%nat) by lia.
  assert (Hmap : map co_params (repeat (mk_opts p None) n) = repeat p n) by (clear; induction n as [|k IHk]; [done|]; cbn [repeat map co_params]; by rewrite IHk).
  destruct (exchange_ok (repeat (mk_opts p None) n) (rd_psk1 r0) (rd_ra r0) (rd_rb r0) cid1 cid2 0) as (x & y & E & M & Mx & My & Vx & Vy & Cx & Cy).
  { apply Forall_forall. intros o Ho. apply elem_of_list_In, repeat_spec in Ho. by subst. }
  { by rewrite repeat_length. }
  rewrite <- Ha, E. rewrite Hmap in Mx, My.
  destruct (rekeys_ok p n rs x y Hv Hn M Mx My ltac:(congruence) Hag' ltac:(rewrite Vx; lia)) as (x' & y' & I1 & I2 & I3 & I4 & I5 & I6 & I7).
  exists x', y'. split_and!; try done; [rewrite I3; lia| |congruence..]. by rewrite I4, Vx, N.add_0_l.
Qed.

(** Only the concatenation of the pre-shared keys matters. *)
Lemma derive_concat prev ss a b : concat a = concat b -> derive_keys P prev ss a = derive_keys P prev ss b.
Proof. intros H. unfold derive_keys. by rewrite H. Qed.

Lemma stage1_concat c t a b : concat a = concat b -> stage1_alice P c t a = stage1_alice P c t b.
Proof.
  intros H.
  assert (Hp : forall q u, pq_on_ct P q u a = pq_on_ct P q u b).
  { intros q u. unfold pq_on_ct. by rewrite (derive_concat _ _ _ _ H). }
  assert (Hl : forall ls ts, on_cts P ls ts a = on_cts P ls ts b).
  { induction ls as [|l ls IH]; intros [|u ts]; try done. cbn [on_cts]. by rewrite Hp, IH. }
  unfold stage1_alice. by rewrite Hl, Hp.
Qed.

Lemma exchange_concat osA osB cA cB v a a' b ra rb :
  concat a = concat a' -> exchange P osA osB cA cB v a b ra rb = exchange P osA osB cA cB v a' b ra rb.
Proof.
  intros H. unfold exchange. destruct (new_alice _ _ _ _) as [x|]; [|done].
  destruct (new_bob _ _ _ _ _ _) as [y|]; [|done]. destruct (stage0_bob _ _) as [t|]; [|done].
  by rewrite (stage1_concat x t a a' H).
Qed.

Lemma xor_inj (c x y : list N) : length x = length c -> length y = length c ->
  zip_with N.lxor c x = zip_with N.lxor c y -> x = y.
Proof.
  revert x y. induction c as [|z c IH]; intros [|p x] [|q y]; try done. cbn [length zip_with].
  intros H1 H2 H3. injection H3 as Hz Ht. f_equal; [|apply IH; lia || done].
  assert (N.lxor z (N.lxor z p) = N.lxor z (N.lxor z q)) as E by congruence.
  by rewrite !N.lxor_assoc in E || (rewrite <- !N.lxor_assoc, !N.lxor_nilpotent, !N.lxor_0_l in E).
Qed.

Context (HS : prims_strict P).

Lemma derive_bob_differs alg prev ss a b :
  concat a <> concat b -> no_collision P alg prev ss (concat a) (concat b) ->
  (forall c, prev = Some c -> length (ch_bob c) = 32%nat) ->
  cut alg (ch_bob (derive_keys P prev ss a)) <> cut alg (ch_bob (derive_keys P prev ss b)).
Proof using HS.
  intros Hne Hnc Hlen. unfold derive_keys. destruct prev as [c|]; cbn [ch_bob].
  - destruct Hnc as [H1 H2]. apply H2. intros E. apply xor_inj in E.
    + revert E. apply H1. intros E. apply app_inv_head, app_inv_head in E. done.
    + rewrite drop_length, (len512 _ HS), (Hlen c eq_refl). done.
    + rewrite drop_length, (len512 _ HS), (Hlen c eq_refl). done.
  - apply Hnc. intros E. apply app_inv_head in E. done.
Qed.

(** With different derived keys the initiator refuses the responder's answer. *)
Lemma mismatch_layer o a b sk ssk skb sskb coins nonce m :
  validate_crypto_params (co_params o) = true -> concat a <> concat b ->
  no_collision P (cp_enc (co_params o)) (co_chain o) (snd (kem_encap P (kem_pk P sk) coins)) (concat a) (concat b) ->
  (forall c, co_chain o = Some c -> length (ch_bob c) = 32%nat) ->
  exists cA cB t cA', pq_new_alice o sk ssk = Some cA /\
    pq_new_bob P o (pq_a2b P cA) b skb sskb coins = Some cB /\
    pq_b2a P cB = Some t /\ pq_on_ct P cA t a = Some cA' /\
    (exists ct, pq_encrypt P cB nonce [] m = Some ct /\ pq_decrypt P cA' nonce [] ct = None).
Proof using HP HS.
  destruct o as [[enc kem sg] ch]. cbn [co_params co_chain cp_sig cp_enc]. intros Hv Hne Hnc Hlen.
  pose proof (kem_ok _ HP sk coins) as HK.
  destruct (kem_encap P (kem_pk P sk) coins) as [ct ss] eqn:He. cbn [fst snd] in HK, Hnc.
  pose proof (derive_bob_differs enc ch ss a b Hne Hnc Hlen) as Hd.
  pose (da := derive_keys P ch ss a); assert (Heqda : da = derive_keys P ch ss a) by reflexivity; clearbody da.
  pose (db := derive_keys P ch ss b); assert (Heqdb : db = derive_keys P ch ss b) by reflexivity; clearbody db.
  rewrite <- Heqda, <- Heqdb in Hd.
  assert (Hsg : forall sk m, sg_verify P (sg_pk P sk) m (sg_sign P sk m) = true) by apply HP.
  unfold pq_new_alice, pq_new_bob, pq_a2b, pq_on_ct, pq_b2a, keys_to_aead_store.
  cbn [co_params co_chain]. rewrite Hv. cbn [negb cp_sig cp_enc].
  exists (mk_pqc (mk_cp enc kem sg) (mk_kex None sk None None) (match sg with SigNone => None | _ => Some (mk_sig ssk None) end) ch None Alice).
  destruct kem, sg, enc; try discriminate Hv; cbn [cut] in Hd.
  all: cbn [pq_kex kx_sk pq_sig ab_pk ab_sig sg_sk]; rewrite He, ?Hsg; cbn [negb co_chain]; rewrite <- ?Heqdb;
    do 3 eexists; split; [reflexivity|]; split; [cbn [pq_kex kx_sk pq_sig ab_pk ab_sig sg_sk]; rewrite ?Hsg; reflexivity|];
    split; [cbn [kx_ct pq_kex pq_sig]; reflexivity|].
  all: cbn [ba_sig ba_ct ba_pk pq_sig pq_kex kx_sk pq_chain pq_params pq_side cp_enc negb kx_ct sg_sk]; rewrite ?Hsg; cbn [negb];
    rewrite HK, <- ?Heqda; split; [reflexivity|].
  all: unfold pq_encrypt, pq_decrypt, dec_key, enc_key; cbn [pq_params cp_enc pq_keys pq_side mod_encrypt mod_decrypt kx_remote sg_remote kx_sk sg_sk].
  all: eexists; split; [reflexivity|]; rewrite ?(hy_ok _ HP); apply (ae_strict _ HS); intros E; apply Hd; by rewrite E.
Qed.

Lemma exchange_mismatch o os a b ra rb cidA cidB ver :
  Forall (fun o => validate_crypto_params (co_params o) = true) (o :: os) ->
  concat a <> concat b ->
  no_collision P (cp_enc (co_params o)) (co_chain o)
    (snd (kem_encap P (kem_pk P (ra_sk ra (Some 0%nat))) (rb_coins rb (Some 0%nat)))) (concat a) (concat b) ->
  (forall c, co_chain o = Some c -> length (ch_bob c) = 32%nat) ->
  exchange P (o :: os) (o :: os) cidA cidB ver a b ra rb = None.
Proof using HP HS.
  intros Hv Hne Hnc Hlen. inversion Hv as [|? ? Ho Hos]; subst.
  destruct (mismatch_layer o a b (ra_sk ra (Some 0%nat)) (ra_ssk ra (Some 0%nat)) (rb_sk rb (Some 0%nat)) (rb_ssk rb (Some 0%nat))
    (rb_coins rb (Some 0%nat)) (ra_nonce_msg ra) (eb_ser P (mk_eb cidB ver (rb_bank rb (Some 0%nat)))) Ho Hne Hnc Hlen)
    as (cA & cB & t & cA' & G1 & G2 & G3 & G4 & ct & C1 & C2).
  unfold exchange, new_alice. destruct (255 <=? _)%nat; [done|]. cbn [alice_layers]. rewrite G1.
  destruct (alice_layers 1 os ra) as [lA|]; [|done].
  destruct (pq_new_alice (mk_opts (co_params o) None) _ _) as [sA|]; [|done].
  unfold stage0_alice, new_bob. cbn [cn_layers map snd abt_txs bob_layers abt_version cn_version abt_level cn_level abt_params cn_params abt_scr abt_nonce_msg abt_nonce_scr cn_nonce_msg cn_nonce_scr cn_scr].
  rewrite G2. destruct (negb _); [done|]. destruct (pq_new_bob P (mk_opts _ None) _ _ _ _ _) as [sB|]; [|done].
  unfold stage0_bob. cbn [cn_layers map opt_all snd app cn_nonce_msg cn_nonce_scr cn_scr].
  rewrite G3. destruct (opt_all (map (fun l => pq_b2a P (snd l)) _)) as [bts|]; [|done].
  destruct (pq_b2a P sB) as [sbt|]; [|done].
  unfold enc_bank at 1. cbn [fst snd]. rewrite C1.
  destruct (opt_all (map (enc_bank _ _) _)) as [cts|]; [|done].
  destruct (enc_bank P _ _) as [sct|]; [|done].
  unfold stage1_alice. cbn [cn_layers bat_txs on_cts snd fst]. rewrite G4.
  destruct (on_cts P lA bts a) as [lA1|]; [|done].
  cbn [bat_banks open_banks snd cn_nonce_msg]. unfold open_bank at 1. by rewrite C2.
Qed.

Lemma concat_fixed_inj (k : nat) (x y : list (list N)) :
  (0 < k)%nat -> Forall (fun l => length l = k) x -> Forall (fun l => length l = k) y -> concat x = concat y -> x = y.
Proof.
  intros Hk Hx. revert y. induction Hx as [|l x Hl Hx IH]; intros [|m y] Hy E; cbn [concat] in E; [done| | |].
  - inversion Hy; subst. apply (f_equal length) in E. rewrite app_length in E. cbn in E. lia.
  - apply (f_equal length) in E. rewrite app_length in E. cbn in E. lia.
  - inversion Hy; subst. apply app_inj_1 in E as [-> E]; [|lia]. f_equal. by apply IH.
Qed.

Lemma psk_concat_inj pw1 pw2 :
  (forall x y, x ∈ pw1 -> y ∈ pw2 -> sha256 P x = sha256 P y -> x = y) ->
  concat (psk_of P pw1) = concat (psk_of P pw2) -> pw1 = pw2.
Proof using HS.
  intros Hh E. apply (concat_fixed_inj 32) in E; [|lia|..].
  2,3: unfold psk_of; apply Forall_forall; intros l Hl; apply elem_of_list_In, in_map_iff in Hl as (z & <- & _); apply HS.
  revert pw2 Hh E. induction pw1 as [|x l IH]; intros [|y l2] Hh E; try done.
  cbn [psk_of map] in E. injection E as E1 E2. f_equal.
  - apply Hh; [left|left|done].
  - apply IH; [|done]. intros u v Hu Hv. apply Hh; by right.
Qed.
End KS.

(** ** C53 *)
Section Sig.
Context (P : prims).
Definition signed_a (t : a2b) : Prop := forall apk s, ab_sig t = Some (apk, s) -> sg_verify P apk (ab_pk t) s = true.
Definition signed_b (t : b2a) : Prop := forall bpk s, ba_sig t = Some (bpk, s) -> sg_verify P bpk (ba_ct t) s = true.

Lemma new_bob_signed o t psks sk ssk coins c :
  pq_new_bob P o t psks sk ssk coins = Some c ->
  signed_a t /\ kx_remote (pq_kex c) = Some (ab_pk t) /\
  pq_sig c = (match ab_sig t with None => None | Some (apk, _) => Some (mk_sig ssk (Some apk)) end).
Proof.
  unfold pq_new_bob. destruct (negb _); [done|]. destruct (kem_encap _ _ _) as [ct ss].
  destruct (ab_sig t) as [[apk s]|] eqn:E.
  - destruct (sg_verify _ _ _ _) eqn:Ev; [|done]. destruct (keys_to_aead_store _ _ _ _ _ _); [|done].
    intros [= <-]. cbn. split; [|done]. intros a b Hab. rewrite E in Hab. by injection Hab as <- <-.
  - destruct (keys_to_aead_store _ _ _ _ _ _); [|done]. intros [= <-]. cbn. split; [|done]. intros a b Hab. congruence.
Qed.

Lemma bob_layers_signed ts : forall i os cid ver psks r,
  Forall (fun l => exists t, t ∈ ts /\ signed_a t /\ kx_remote (pq_kex (snd l)) = Some (ab_pk t))
    (bob_layers P i ts os cid ver psks r).
Proof.
  induction ts as [|t ts IH]; intros i [|o os] cid ver psks r; cbn [bob_layers]; try constructor.
  apply Forall_app. split.
  - destruct (pq_new_bob _ _ _ _ _ _ _) as [c|] eqn:E; constructor; [|constructor]. exists t. split; [left|].
    destruct (new_bob_signed _ _ _ _ _ _ _ E) as (? & ? & _). done.
  - eapply Forall_impl; [apply IH|]. intros l (t' & H1 & H2). exists t'. split; [by right|done].
Qed.

Lemma on_cts_signed ls : forall ts psks ls', on_cts P ls ts psks = Some ls' -> Forall signed_b (take (length ls) ts).
Proof.
  induction ls as [|l ls IH]; intros [|t ts] psks ls' H; cbn [on_cts length take] in *; try constructor.
  - destruct (pq_on_ct _ _ _ _) as [c|] eqn:E; [|done]. intros bpk s Hs. unfold pq_on_ct in E. rewrite Hs in E.
    destruct (pq_sig (snd l)); cbn [negb] in E; [|done]. by destruct (sg_verify _ _ _ _).
  - destruct (pq_on_ct _ _ _ _) as [c|] eqn:E; [|done]. destruct (on_cts _ _ _ _) eqn:E2; [|done]. by eapply IH.
Qed.

Lemma stage1_signed c t psks c' : stage1_alice P c t psks = Some c' ->
  Forall signed_b (take (length (cn_layers c)) (bat_txs t)) /\ signed_b (bat_scr t).
Proof.
  unfold stage1_alice. destruct (on_cts _ _ _ _) as [ls1|] eqn:E; [|done].
  destruct (open_banks _ _ _ _ _); [|done]. destruct (pq_on_ct P (snd (cn_scr c)) _ _) as [s|] eqn:E2; [|done]. intros _.
  split; [by eapply on_cts_signed|]. intros bpk sg Hs. unfold pq_on_ct in E2. rewrite Hs in E2.
  destruct (pq_sig (snd (cn_scr c))); cbn [negb] in E2; [|done]. by destruct (sg_verify _ _ _ _).
Qed.

Lemma unsigned_layer_ok p o t psks sk ssk coins :
  co_params o = p -> validate_crypto_params p = true -> cp_enc p <> MlKemHybrid -> ab_sig t = None ->
  is_Some (pq_new_bob P o t psks sk ssk coins).
Proof.
  intros Ho Hv He Hs. unfold pq_new_bob. rewrite Ho, Hv, Hs. cbn [negb]. destruct (kem_encap _ _ _) as [ct ss].
  unfold keys_to_aead_store. destruct (cp_enc p); try done; eauto.
Qed.

Lemma unsigned_layers_len p ts cid ver psks r : forall i,
  validate_crypto_params p = true -> cp_enc p <> MlKemHybrid -> Forall (fun t => ab_sig t = None) ts ->
  length (bob_layers P i ts (repeat (mk_opts p None) (length ts)) cid ver psks r) = length ts.
Proof.
  intros i Hv He Hs. revert i. induction Hs as [|t ts Ht _ IH]; intros i; cbn [bob_layers length repeat]; [done|].
  destruct (unsigned_layer_ok p (mk_opts p None) t psks (rb_sk r (Some i)) (rb_ssk r (Some i)) (rb_coins r (Some i)) eq_refl Hv He Ht) as [c Hc].
  rewrite Hc. cbn [app length]. by rewrite IH.
Qed.
End Sig.
