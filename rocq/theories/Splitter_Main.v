From Coq Require Import ZifyBool ZifyNat ZifyN.
From stdpp Require Import prelude gmap.
From Verif Require Import Splitter_Model Splitter_Spec Splitter_Proofs Splitter_Sender.
Local Open Scope N_scope.

Lemma div_ceil_nchunks P len : div_ceil (N.of_nat len) (N.of_nat P) = N.of_nat (nchunks P len).
Proof. unfold nchunks. by rewrite N2Nat.id. Qed.

Lemma max_packet_pos mcl : 0 < get_max_packet_size mcl.
Proof. unfold get_max_packet_size, AES_GCM_GHASH_OVERHEAD. lia. Qed.

Lemma wave_plain_pos mcl K : 0 < K -> 0 < wave_plain mcl K.
Proof.
  intros HK. unfold wave_plain. pose proof (max_packet_pos mcl). unfold MAX_WAVEFORM_PACKET_SIZE.
  set (P := get_max_packet_size mcl) in *. nia.
Qed.

Section main.
  Context (mcl : N -> N) (K : N) (enc : nat -> list N -> list N) (dec : list N -> option (list N)).
  Context (plain rnd : list N) (revfs : option (list N -> list N)) (hybrid : bool).
  Let pt := group_plain plain rnd revfs.
  Let P := get_max_packet_size mcl.
  Let M := wave_plain mcl K.
  Let plen := N.of_nat (length pt).
  Let Kn := N.to_nat K.
  Let Pn := N.to_nat P.
  Let Mn := N.to_nat M.
  Let n := nchunks Mn (length pt).
  Let ps (w : nat) : list N := take Mn (drop (w * Mn) pt).
  Let cs (w : nat) : list N := enc w (ps w).
  Let empty := bool_decide (plain = []).
  Context (OK : cipher_ok mcl K enc dec (exact_layout revfs hybrid)).
  Context (Hpart : plen mod M <> 0).

  Lemma plen_eq : plen = M * (plen / M) + plen mod M /\ plen mod M < M.
  Proof.
    pose proof (wave_plain_pos mcl K (ok_K _ _ _ _ _ OK)). fold M in H.
    split; [apply N.div_mod; lia|apply N.mod_lt; lia].
  Qed.

  Lemma n_eq : n = S (N.to_nat (plen / M)).
  Proof.
    unfold n, nchunks, div_ceil, Mn. rewrite N2Nat.id. fold plen.
    destruct (N.eqb_spec (plen mod M) 0); [done|]. lia.
  Qed.

  Lemma n_bounds : ((n - 1) * Mn < length pt < n * Mn)%nat.
  Proof.
    rewrite n_eq. destruct plen_eq as [H1 H2]. unfold Mn. unfold plen in *.
    set (q := N.of_nat (length pt) / M) in *. set (r := N.of_nat (length pt) mod M) in *. clearbody q r. nia.
  Qed.

  Lemma ps_full w : (S w < n)%nat -> length (ps w) = Mn.
  Proof. intros Hw. unfold ps. rewrite length_slice. unfold slen. pose proof n_bounds. nia. Qed.

  Lemma ps_last : (0 < length (ps (n - 1)) < Mn)%nat /\ N.of_nat (length (ps (n - 1))) = plen mod M.
  Proof.
    unfold ps. rewrite length_slice. unfold slen. pose proof n_bounds. pose proof n_eq. destruct plen_eq as [H1 H2].
    unfold plen, Mn in *.
    set (q := N.of_nat (length pt) / M) in *. set (r := N.of_nat (length pt) mod M) in *. clearbody q r. nia.
  Qed.

  Lemma cs_full w : (S w < n)%nat -> wave_fits Kn Pn (length (cs w)).
  Proof. intros Hw. apply (ok_full _ _ _ _ _ OK). by apply ps_full. Qed.
  Lemma cs_last : (0 < length (cs (n - 1)) <= Kn * Pn)%nat.
  Proof. apply (ok_last _ _ _ _ _ OK). apply ps_last. Qed.

  Lemma Kn_pos : (0 < Kn)%nat.
  Proof. pose proof (ok_K _ _ _ _ _ OK). unfold Kn. lia. Qed.
  Lemma Pn_pos : (0 < Pn)%nat.
  Proof. pose proof (max_packet_pos mcl). unfold Pn, P. lia. Qed.
  Lemma n_pos : (0 < n)%nat.
  Proof. rewrite n_eq. apply Nat.lt_0_succ. Qed.
  Lemma Mn_pos : (0 < Mn)%nat.
  Proof. pose proof (wave_plain_pos mcl K (ok_K _ _ _ _ _ OK)). unfold Mn, M. lia. Qed.
  Lemma cs_dec w : (w < n)%nat -> dec (cs w) = Some (ps w).
  Proof. intros _. apply (ok_dec _ _ _ _ _ OK). Qed.
  Lemma ps_eq w : (w < n)%nat -> ps w = take Mn (drop (w * Mn) pt).
  Proof. done. Qed.
  Lemma n_bounds' : ((n - 1) * Mn < length pt <= n * Mn)%nat.
  Proof. pose proof n_bounds. lia. Qed.

  Let the_cfg : cfg := new_refresh plen P (plen / M) 1 M (plen mod M) K (N.of_nat (length (cs (n - 1)))) empty.
  Let the_pkts := collect (waves_packets Kn Pn Mn enc pt).

  Lemma layout : wave_layout plen M = (plen / M, 1, plen mod M).
  Proof.
    unfold wave_layout. destruct (N.ltb_spec plen M).
    - by rewrite N.div_small.
    - destruct (N.eqb_spec (plen mod M) 0); done.
  Qed.

  Lemma send_eq : send_group mcl K enc plain rnd revfs hybrid = Some (the_cfg, the_pkts).
  Proof.
    unfold send_group, metadata. fold pt. fold plen.
    assert (plen <> 0) by (destruct plen_eq; intros E; rewrite E in *; destruct M; done).
    destruct (N.eqb_spec plen 0); [done|]. fold M P. rewrite layout. fold (exact_layout revfs hybrid).
    change (1 =? 0) with false. cbn iota.
    cbn [new_refresh c_max_payload_size c_max_plain c_full c_partial c_last_plain c_max_packets_per_wave c_wave_count].
    fold Kn Pn Mn. fold the_pkts. 
    assert (Hx : exact_layout revfs hybrid = true \/ exact_layout revfs hybrid = false)
      by (destruct (exact_layout revfs hybrid); eauto).
    destruct Hx as [E|E]; rewrite E.
    - f_equal. f_equal. unfold the_cfg. f_equal. destruct ps_last as [_ <-]. symmetry.
      unfold cs. by rewrite (ok_exact _ _ _ _ _ OK).
    - f_equal. f_equal. unfold the_cfg. f_equal.
      replace (plen / M + 1 - 1) with (N.of_nat (n - 1)) by (rewrite n_eq; lia).
      apply (last_bytes Kn Pn Mn enc pt Kn_pos Pn_pos Mn_pos n_pos cs_full cs_last).
  Qed.

  Let cntl := nchunks Pn (length (cs (n - 1))).
  Let needed := ((n - 1) * Kn + cntl)%nat.

  Lemma cfg_packets_last : c_packets_last the_cfg = N.of_nat cntl.
  Proof. cbn. unfold cntl. rewrite <- div_ceil_nchunks. unfold Pn. by rewrite N2Nat.id. Qed.

  Lemma cntl_bounds : ((cntl - 1) * Pn < length (cs (n - 1)) <= cntl * Pn)%nat /\ (0 < cntl <= Kn)%nat.
  Proof.
    destruct (nchunks_spec Pn (length (cs (n - 1))) Pn_pos) as (H1 & H2 & _). fold cntl in H1, H2.
    pose proof cs_last. specialize (H2 ltac:(lia)). pose proof Pn_pos.
    split; [done|]. destruct cntl; nia.
  Qed.

  Lemma cfg_last_payload : c_last_payload_size the_cfg = N.of_nat (length (cs (n - 1)) - (cntl - 1) * Pn).
  Proof.
    pose proof cntl_bounds as [Hb _]. cbn. set (L := length (cs (n - 1))) in *.
    assert (HPn : P = N.of_nat Pn) by (unfold Pn; lia). rewrite HPn. pose proof Pn_pos.
    assert (HD : N.of_nat L = N.of_nat Pn * (N.of_nat L / N.of_nat Pn) + N.of_nat L mod N.of_nat Pn)
      by (apply N.div_mod; lia).
    assert (HL : N.of_nat L mod N.of_nat Pn < N.of_nat Pn) by (apply N.mod_lt; lia).
    set (q := N.of_nat L / N.of_nat Pn) in *. set (r := N.of_nat L mod N.of_nat Pn) in *.
    clearbody q r L cntl. clearbody Pn.
    assert (Hn1 : L = (N.to_nat q * Pn + N.to_nat r)%nat) by lia.
    assert (Hn2 : (N.to_nat r < Pn)%nat) by lia.
    set (qn := N.to_nat q) in *. 
    destruct (N.eqb_spec r 0) as [->|Hr].
    - assert (Ha : (cntl - 1 < qn)%nat) by (apply (Nat.mul_lt_mono_pos_r Pn); lia).
      assert (Hc : (qn <= cntl)%nat) by (apply (Nat.mul_le_mono_pos_r _ _ Pn); lia).
      assert (cntl = qn) as -> by lia. subst L.
      replace (qn * Pn)%nat with ((qn - 1) * Pn + Pn)%nat; [|rewrite Nat.mul_sub_distr_r; nia]. lia.
    - assert (Ha : (cntl - 1 < qn + 1)%nat) by (apply (Nat.mul_lt_mono_pos_r Pn); lia).
      assert (Hc : (qn < cntl)%nat) by (apply (Nat.mul_lt_mono_pos_r Pn); lia).
      assert (cntl = qn + 1)%nat as -> by lia. subst L.
      replace (qn + 1 - 1)%nat with qn by lia. lia.
  Qed.

  Lemma cfg_needed : N.to_nat (c_packets_needed the_cfg) = needed.
  Proof.
    change (c_packets_needed the_cfg) with (plen / M * K + c_packets_last the_cfg).
    rewrite cfg_packets_last, N2Nat.inj_add, N2Nat.inj_mul, Nat2N.id. unfold needed. rewrite n_eq. f_equal. by rewrite Nat.sub_succ, Nat.sub_0_r.
  Qed.

  Lemma init_inv : inv Kn Pn Mn n cs ps pt ∅ (new_receiver the_cfg).
  Proof.
    pose proof cntl_bounds as [Hb Hc]. pose proof cfg_last_payload as HLP.
    assert (Hnc : forall w, (w < n)%nat -> ~ cplt Kn Pn cs ∅ w).
    { intros w Hw Hcp. unfold cplt in Hcp. rewrite Forall_forall in Hcp.
      pose proof (cnt_bound Kn Pn Mn n cs ps pt dec Kn_pos Pn_pos n_pos cs_full cs_last cs_dec ps_eq n_bounds' w Hw) as Hcb.
      specialize (Hcp 0%nat). rewrite elem_of_seq in Hcp. specialize (Hcp ltac:(lia)). set_solver. }
    constructor; try done.
    - apply cfg_needed.
    - cbn [new_receiver r_last]. rewrite HLP. apply Nat2N.id.
    - intros w. cbn [new_receiver r_waves].
      assert (Hwc : N.to_nat (c_wave_count the_cfg) = n) by (cbn; rewrite n_eq; lia). rewrite Hwc.
      case_bool_decide as Hw.
      + destruct Hw as [Hw _]. exists (new_store the_cfg w). split.
        * apply elem_of_list_to_map.
          { rewrite <- list_fmap_compose. rewrite (list_fmap_ext _ id) by done. rewrite list_fmap_id. apply NoDup_seq. }
          apply elem_of_list_fmap. exists w. split; [done|]. apply elem_of_seq. lia.
        * assert (Hg : got Kn Pn cs ∅ w = []).
          { unfold got. apply elem_of_nil_inv. intros x. rewrite elem_of_list_filter. set_solver. }
          unfold new_store.
          replace (c_wave_count the_cfg - 1) with (N.of_nat (n - 1)) by (cbn; rewrite n_eq; lia).
          destruct (N.eqb_spec (N.of_nat w) (N.of_nat (n - 1))) as [Hwl|Hwl].
          -- assert (w = n - 1)%nat by lia. subst w.
             constructor; rewrite ?Hg; cbn [ws_recv ws_count ws_written ws_buf]; try done.
             ++ rewrite cfg_packets_last. apply Nat2N.id.
             ++ rewrite replicate_length, bool_decide_eq_true_2 by done.
                rewrite cfg_packets_last, HLP. change (c_max_payload_size the_cfg) with P.
                replace P with (N.of_nat Pn) by (unfold Pn; lia). clearbody cntl. lia.
             ++ intros i j Hi. set_solver.
          -- assert (S w < n)%nat by lia.
             constructor; rewrite ?Hg; cbn [ws_recv ws_count ws_written ws_buf]; try done.
             ++ change (N.to_nat (c_max_packets_per_wave the_cfg)) with Kn.
                symmetry. apply (cnt_full Kn Pn n cs Pn_pos cs_full). done.
             ++ rewrite replicate_length, bool_decide_eq_false_2 by lia.
                change (c_max_payload_size the_cfg) with P. change (c_max_packets_per_wave the_cfg) with K.
                unfold Kn, Pn. lia.
             ++ intros i j Hi. set_solver.
      + apply not_elem_of_list_to_map_1. rewrite <- list_fmap_compose.
        rewrite (list_fmap_ext _ id) by done. rewrite list_fmap_id, elem_of_seq.
        intros Hin. apply Hw. split; [lia|]. apply Hnc. lia.
    - cbn [new_receiver r_slab]. rewrite replicate_length. cbn. unfold plen. lia.
    - intros w j Hw Hcp. by destruct (Hnc w Hw).
    - cbn [new_receiver r_written]. replace (filter (cplt Kn Pn cs ∅) (seq 0 n)) with (@nil nat); [done|].
      symmetry. apply elem_of_nil_inv. intros w. rewrite elem_of_list_filter, elem_of_seq. intros [H1 H2].
      apply (Hnc w); [lia|done].
  Qed.

  Lemma main_reassembly (l : list nat) :
    Forall (fun s => s ∈ dom the_pkts) l ->
    exists r, run dec (new_receiver the_cfg) (arrivals Kn the_pkts l)
              = (spec_statuses Kn (dom the_pkts) ∅ l, r)
      /\ (dom the_pkts ⊆ (list_to_set l : gset nat) ->
          finalize r = if bool_decide (plain = []) then [] else pt).
  Proof.
    intros Hl.
    assert (Hdom : dom the_pkts = (set_seq 0 needed : gset nat))
      by apply (pkts_dom Kn Pn Mn enc pt Kn_pos Pn_pos Mn_pos n_pos cs_full cs_last).
    assert (Hpl : forall s, (s < needed)%nat ->
       the_pkts !! s = Some (take Pn (drop (s mod Kn * Pn) (cs (s / Kn)%nat))))
      by (apply (pkts_lookup Kn Pn Mn enc pt Kn_pos Pn_pos Mn_pos n_pos cs_full cs_last)).
    rewrite Hdom in *.
    assert (Hl' : Forall (fun s => (s < needed)%nat) l).
    { eapply Forall_impl; [exact Hl|]. intros s Hs. cbn in Hs. apply elem_of_set_seq in Hs. lia. }
    destruct (run_spec Kn Pn Mn n cs ps pt dec Kn_pos Pn_pos n_pos cs_full cs_last
      cs_dec ps_eq n_bounds' ∅ (new_receiver the_cfg) l init_inv Hl')
      as (r & Hr & I & Hemp).
    exists r. split.
    - refine (eq_trans _ Hr). f_equal. unfold arrivals. clear -Hl' Hpl.
      induction Hl' as [|s l Hs Hl IH]; [done|]. cbn [fmap list_fmap]. rewrite IH, Hpl by done. done.
    - intros Hall. unfold finalize. rewrite Hemp. cbn [new_receiver r_empty]. cbn.
      fold empty. destruct empty; [done|].
      apply (all_cplt_slab Kn Pn Mn n cs ps pt dec Kn_pos Pn_pos n_pos cs_full cs_last cs_dec ps_eq n_bounds' _ _ I).
      apply (all_cplt Kn Pn Mn n cs ps pt dec Kn_pos Pn_pos n_pos cs_full cs_last cs_dec ps_eq n_bounds'). set_solver.
  Qed.

  Lemma cfg_facts :
    c_packets_needed the_cfg = c_full the_cfg * K + c_packets_last the_cfg
    /\ c_max_packets_per_wave the_cfg = K /\ c_plaintext_length the_cfg = plen
    /\ c_max_payload_size the_cfg = P /\ c_partial the_cfg = 1 /\ c_wave_count the_cfg = c_full the_cfg + 1
    /\ c_max_plain the_cfg = M /\ c_last_plain the_cfg = plen mod M
    /\ c_full the_cfg * M + plen mod M = plen /\ 0 < plen mod M < M
    /\ 0 < c_packets_last the_cfg <= K /\ 0 < c_last_payload_size the_cfg <= P.
  Proof.
    pose proof cntl_bounds as [Hb Hc]. pose proof cfg_last_payload as HLP. pose proof cfg_packets_last as HPL.
    pose proof plen_eq as [H1 H2]. pose proof Pn_pos.
    split; [done|]. rewrite HLP, HPL. split_and!; try done; try lia.
    all: try (change (c_full the_cfg) with (plen / M); lia).
    all: unfold Kn, Pn in *; clearbody cntl; clear HLP HPL.
    all: set (x := length (cs (n - 1))) in *; clearbody x; clear -Hb Hc H.
    all: assert (HPe : exists q, N.to_nat P = q) by eauto; destruct HPe as [q HPe]; rewrite HPe in *.
    all: destruct cntl as [|k]; [lia|]; rewrite Nat.sub_succ, Nat.sub_0_r in *; rewrite Nat.mul_succ_l in Hb;
      set (z := (k * q)%nat) in *; clearbody z; lia.
  Qed.

  Lemma sent_packets c pkts :
    send_group mcl K enc plain rnd revfs hybrid = Some (c, pkts) ->
    dom pkts = (set_seq 0 (N.to_nat (c_packets_needed c)) : gset nat)
    /\ forall s, (s < N.to_nat (c_packets_needed c))%nat ->
        pkts !! s = Some (take Pn (drop (s mod Kn * Pn) (enc (s / Kn)%nat (take Mn (drop (s / Kn * Mn) pt))))).
  Proof.
    rewrite send_eq. intros E. injection E as <- <-. rewrite cfg_needed. split.
    - apply (pkts_dom Kn Pn Mn enc pt Kn_pos Pn_pos Mn_pos n_pos cs_full cs_last).
    - apply (pkts_lookup Kn Pn Mn enc pt Kn_pos Pn_pos Mn_pos n_pos cs_full cs_last).
  Qed.

  Lemma reassembly c pkts l :
    send_group mcl K enc plain rnd revfs hybrid = Some (c, pkts) ->
    Forall (fun s => s ∈ dom pkts) l ->
    exists r, run dec (new_receiver c) (arrivals Kn pkts l) = (spec_statuses Kn (dom pkts) ∅ l, r)
      /\ (dom pkts ⊆ (list_to_set l : gset nat) -> finalize r = if bool_decide (plain = []) then [] else pt).
  Proof. rewrite send_eq. intros E. injection E as <- <-. apply main_reassembly. Qed.
End main.
