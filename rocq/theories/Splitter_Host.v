(** Proofs about the receiver's acknowledgements, hostile descriptions and a meddling relay. *)
From Coq Require Import ZifyBool ZifyNat ZifyN.
From stdpp Require Import prelude gmap.
From Verif Require Import Splitter_Model Splitter_Spec Splitter_Proofs Splitter_Sender Splitter_Main Splitter_Val.
Local Open Scope N_scope.

(** ** Acknowledgements of a receiver that sees only the sender's packets *)
Section honest.
  Context (K : nat) (W : N) (sent : gset nat).
  Context (Hin : forall x, x ∈ sent -> N.of_nat (x / K) < W).
  Context (Hne : forall w, w < W -> exists x, x ∈ sent /\ N.of_nat (x / K) = w).
  Definition dn (B : gset nat) (w : N) : Prop := forall x, x ∈ sent -> N.of_nat (x / K) = w -> x ∈ B.

  Lemma dn_other B s w : N.of_nat (s / K) <> w -> dn ({[s]} ∪ B) w <-> dn B w.
  Proof.
    intros Hne'. split; intros H x Hx Hw; specialize (H x Hx Hw); [|set_solver].
    apply elem_of_union in H as [H%elem_of_singleton|?]; [|done]. subst x. done.
  Qed.

  Lemma ack_step l : forall B A,
    Forall (fun s => s ∈ sent) l ->
    (forall w, w < W -> w ∈ A <-> dn B w) ->
    let sts := spec_statuses K sent B l in
    spec_acks W A (omap ack_of sts) = omap fin_of sts
    /\ NoDup (omap ack_of sts) /\ Forall (fun w => w < W /\ ~ dn B w) (omap ack_of sts).
  Proof.
    induction l as [|s l IH]; intros B A Hl HA sts; subst sts; [by split_and!; try constructor|].
    apply Forall_cons in Hl as [Hs Hl]. cbn [spec_statuses]. 
    set (w := N.of_nat (s / K)). assert (HwW : w < W) by (by apply Hin).
    unfold spec_status. case_bool_decide as HsB.
    { cbn [omap list_omap ack_of fin_of]. replace ({[s]} ∪ B) with B by set_solver. by apply IH. }
    assert (Hnd : ~ dn B w) by (intros Hd; apply HsB; by apply Hd).
    assert (HD : (forall x, x < W -> x ∈ ({[w]} ∪ A) <-> (x = w \/ dn ({[s]} ∪ B) x))).
    { intros x Hx. rewrite elem_of_union, elem_of_singleton, (HA x Hx).
      destruct (decide (x = w)); [naive_solver|]. rewrite dn_other by done. naive_solver. }
    assert (Hall : (forall x, x < W -> dn ({[s]} ∪ B) x) <-> sent ⊆ {[s]} ∪ B).
    { split; [|intros Hsub x Hx y Hy _; by apply Hsub]. intros Hx y Hy. apply (Hx (N.of_nat (y / K))); [by apply Hin|done|done]. }
    assert (Hdw : dn ({[s]} ∪ B) w <->
       set_Forall (fun x => (x / K)%nat = (s / K)%nat -> x ∈ ({[s]} ∪ B : gset nat)) sent).
    { unfold dn, set_Forall, w. split; intros H x Hx Hxw; apply H; try done; lia. }
    assert (Hmono : forall x, ~ dn ({[s]} ∪ B) x -> ~ dn B x).
    { intros x Hx Hb. apply Hx. intros y Hy Hyw. apply elem_of_union. right. by apply Hb. }
    assert (Htail : dn ({[s]} ∪ B) w ->
      let sts := spec_statuses K sent ({[s]} ∪ B) l in
      spec_acks W ({[w]} ∪ A) (omap ack_of sts) = omap fin_of sts
      /\ NoDup (w :: omap ack_of sts) /\ Forall (fun w => w < W /\ ~ dn B w) (w :: omap ack_of sts)).
    { intros Hdone. destruct (IH ({[s]} ∪ B) ({[w]} ∪ A)) as (I1 & I2 & I3); [done| |].
      - intros x Hx. rewrite HD by done. split; [intros [->|?]; done|naive_solver].
      - split; [done|]. split.
        + constructor; [|done]. intros Hin'. rewrite Forall_forall in I3. by apply (I3 w) in Hin' as [_ ?].
        + constructor; [done|]. eapply Forall_impl; [exact I3|]. cbn. naive_solver. }
    case_bool_decide as Hsub.
    { cbn [omap list_omap ack_of fin_of spec_acks]. fold w.
      destruct Htail as (I1 & I2 & I3); [by apply Hall|]. split; [|split; [exact I2|exact I3]].
      f_equal; [|exact I1]. unfold spec_ack. destruct (N.ltb_spec w W); [|lia]. cbn [andb].
      apply bool_decide_eq_true_2. intros x Hx%elem_all_waves. apply HD; [done|]. right. by apply Hall. }
    case_bool_decide as Hwave.
    { cbn [omap list_omap ack_of fin_of spec_acks]. fold w.
      destruct Htail as (I1 & I2 & I3); [by apply Hdw|]. split; [|split; [exact I2|exact I3]].
      f_equal; [|exact I1]. unfold spec_ack. destruct (N.ltb_spec w W); [|lia]. cbn [andb].
      apply bool_decide_eq_false_2. intros HF. apply Hsub. apply Hall. intros x Hx.
      destruct (proj1 (HD x Hx)) as [->|?]; [|by apply Hdw|done]. apply HF. by apply elem_all_waves. }
    cbn [omap list_omap ack_of fin_of].
    destruct (IH ({[s]} ∪ B) A) as (I1 & I2 & I3); [done| |].
    - intros x Hx. rewrite (HA x Hx). destruct (decide (x = w)) as [->|]; [|by rewrite dn_other].
      split; [done|]. intros Hd. by apply Hdw in Hd.
    - split; [done|]. split; [done|]. eapply Forall_impl; [exact I3|]. cbn. naive_solver.
  Qed.
End honest.

(** ** Memory *)
Lemma sum_seq_const {A} (f : A -> nat) (g : nat -> A) n x :
  (forall i, (i < n)%nat -> f (g i) = x) -> sum_list_with f (g <$> seq 0 n) = (n * x)%nat.
Proof.
  induction n as [|n IH]; intros H; [done|].
  rewrite seq_S, fmap_app, sum_list_with_app, IH by (intros; apply H; lia).
  cbn [fmap list_fmap sum_list_with]. rewrite Nat.add_0_l, H by lia. lia.
Qed.

Lemma sum_perm {A} (f : A -> nat) l k : l ≡ₚ k -> sum_list_with f l = sum_list_with f k.
Proof. induction 1; cbn; lia. Qed.

Lemma bytes_bound c : validate c = true -> receiver_bytes (new_receiver c) <= MAX_RECEIVER_ALLOCATION.
Proof.
  intros V%validate_valid. unfold receiver_bytes. cbn [new_receiver r_slab r_waves]. rewrite replicate_length.
  rewrite (sum_perm _ _ ((fun w => (w, new_store c w)) <$> seq 0 (N.to_nat (c_wave_count c)))).
  2: { apply map_to_list_to_map. rewrite <- list_fmap_compose. rewrite (list_fmap_ext _ id) by done.
       rewrite list_fmap_id. apply NoDup_seq. }
  destruct (N.to_nat (c_wave_count c)) as [|k] eqn:Ek.
  { pose proof (v_wc _ V). lia. }
  rewrite seq_S, fmap_app, sum_list_with_app. 
  rewrite (sum_seq_const _ _ _ (N.to_nat (c_max_payload_size c * c_max_packets_per_wave c))).
  2: { intros i Hi. cbn [snd]. unfold new_store. destruct (N.eqb_spec (N.of_nat i) (c_wave_count c - 1)); [lia|].
       cbn [ws_buf]. apply replicate_length. }
  cbn [fmap list_fmap sum_list_with snd]. unfold new_store. rewrite Nat.add_0_l.
  destruct (N.eqb_spec (N.of_nat k) (c_wave_count c - 1)); [|lia]. cbn [ws_buf]. rewrite replicate_length, Nat.add_0_r.
  pose proof (v_alloc _ V) as HA. pose proof (v_waves _ V). pose proof (v_part _ V).
  set (lc := (c_packets_last c - 1) * c_max_payload_size c) in *. clearbody lc.
  assert (Hk : N.of_nat k * (c_max_payload_size c * c_max_packets_per_wave c)
     <= c_full c * c_max_payload_size c * c_max_packets_per_wave c).
  { rewrite <- N.mul_assoc. apply N.mul_le_mono_r. lia. }
  set (fc := c_full c * c_max_payload_size c * c_max_packets_per_wave c) in *. clearbody fc.
  set (pk := c_max_payload_size c * c_max_packets_per_wave c) in *. clearbody pk.
  assert (Hkk : N.of_nat (k * N.to_nat pk) = N.of_nat k * pk) by lia.
  rewrite !Nat2N.inj_add, Hkk. set (z := N.of_nat k * pk) in *. clearbody z. lia.
Qed.

(** ** Hostile packets *)
Section hostile.
  Context (c : cfg) (dec : list N -> option (list N)).
  Context (V : valid c) (Hpart : c_partial c = 1).
  Let K := N.to_nat (c_max_packets_per_wave c).
  Let P := N.to_nat (c_max_payload_size c).
  Let L := N.to_nat (c_packets_last c).
  Let F := N.to_nat (c_full c).
  Let lp := N.to_nat (c_last_payload_size c).
  Definition blen (w : nat) : nat := length (ws_buf (new_store c w)).
  Record sane (r : receiver) : Prop := {
    sa_needed : r_needed r = (F * K + L)%nat; sa_P : r_P r = P; sa_last : r_last r = lp; sa_K : r_K r = K;
    sa_waves : forall w ws, r_waves r !! w = Some ws -> (w <= F)%nat /\ length (ws_buf ws) = blen w }.

  Lemma sane_pos : (0 < K /\ 0 < P /\ 0 < L <= K /\ lp <= P)%nat.
  Proof.
    pose proof (v_P _ V). pose proof (v_K _ V). pose proof (v_last _ V). pose proof (v_lastp _ V).
    unfold K, P, L, lp. lia.
  Qed.

  Lemma blen_full w : (w < F)%nat -> blen w = (P * K)%nat.
  Proof.
    intros Hw. unfold blen, new_store. pose proof (v_waves _ V).
    destruct (N.eqb_spec (N.of_nat w) (c_wave_count c - 1)); [unfold F in *; lia|].
    cbn [ws_buf]. rewrite replicate_length. unfold P, K. lia.
  Qed.
  Lemma blen_last : blen F = ((L - 1) * P + lp)%nat.
  Proof.
    unfold blen, new_store. pose proof (v_waves _ V).
    destruct (N.eqb_spec (N.of_nat F) (c_wave_count c - 1)); [|unfold F in *; lia].
    cbn [ws_buf]. rewrite replicate_length. unfold L, P, lp. lia.
  Qed.

  Lemma sane_init : sane (new_receiver c).
  Proof.
    pose proof (v_packets _ V). pose proof (v_waves _ V).
    constructor; try done.
    - cbn [new_receiver r_needed]. unfold F, K, L. lia.
    - intros w ws Hw. cbn [new_receiver r_waves] in Hw. apply elem_of_list_to_map_2 in Hw.
      apply elem_of_list_fmap in Hw as (x & Hx & Hs). injection Hx as -> ->. apply elem_of_seq in Hs.
      split; [unfold F; lia|done].
  Qed.

  Lemma sane_packet r w i p st r' :
    sane r -> (i < K)%nat -> on_packet dec r (w * K + i) w p = (st, r') -> st <> SPanic /\ sane r'.
  Proof.
    intros Sr Hi Ho. unfold on_packet in Ho. pose proof sane_pos as (HK & HP & HL & Hlp).
    destruct (Nat.ltb_spec (w * K + i) (r_needed r)) as [Hlt|]; [|by injection Ho as <- <-]. cbn [negb] in Ho.
    case_bool_decide; [by injection Ho as <- <-|].
    assert (S0 : sane (set_seen r ({[(w * K + i)%nat]} ∪ r_seen r))) by (destruct Sr; by constructor).
    set (r0 := set_seen r _) in *. clearbody r0.
    destruct (r_waves r0 !! w) as [ws|] eqn:Ew; [|by injection Ho as <- <-].
    destruct (sa_waves _ S0 _ _ Ew) as [HwF Hbl]. rewrite (sa_needed _ Sr) in Hlt.
    set (len := length (ws_buf ws)) in *.
    assert (HR : exists s e, insertion_range r0 (w * K + i) len = Some (s, e) /\ (s <= e <= len)%nat).
    { unfold insertion_range. rewrite (sa_needed _ S0), (sa_P _ S0), (sa_last _ S0), (sa_K _ S0).
      case_bool_decide as Hseq.
      - assert (w = F). { clear - Hseq HwF Hi HL. destruct (decide (w = F)); [done|]. assert (S w <= F)%nat by lia. nia. }
        subst w. rewrite blen_last in Hbl.
        assert (Hlpl : (lp <= len)%nat) by (rewrite Hbl; apply Nat.le_add_l). destruct (Nat.leb_spec lp len); [|lia].
        eexists _, _. split; [reflexivity|]. lia.
      - rewrite Nat.add_comm, Nat.mod_add, Nat.mod_small by lia. eexists _, _. split; [reflexivity|].
        destruct (decide (w = F)) as [->|Hne].
        + rewrite blen_last in Hbl. assert (S i <= L - 1)%nat by lia.
          assert (Hle : (P * S i <= P * (L - 1))%nat) by (apply Nat.mul_le_mono_l; lia).
          rewrite Nat.mul_succ_r in Hle. rewrite (Nat.mul_comm (L - 1)) in Hbl.
          clear - Hle Hbl. clearbody len P L lp. set (a := (P * i)%nat) in *. set (b := (P * (L - 1))%nat) in *. clearbody a b. lia.
        + rewrite blen_full in Hbl by lia.
          assert (Hle : (P * S i <= P * K)%nat) by (apply Nat.mul_le_mono_l; lia).
          rewrite Nat.mul_succ_r in Hle. 
          clear - Hle Hbl. clearbody len P K. set (a := (P * i)%nat) in *. set (b := (P * K)%nat) in *. clearbody a b. lia. }
    destruct HR as (s & e & HR & Hse). rewrite HR in Ho.
    destruct (check_bounds len s e); cbn [negb] in Ho; [|by injection Ho as <- <-].
    destruct (Nat.ltb_spec len e); [lia|].
    destruct (check_bounds (e - s) 0 (length p)) eqn:Ec; cbn [negb] in Ho; [|by injection Ho as <- <-].
    assert (Hpl : (length p <= e - s)%nat).
    { unfold check_bounds in Ec. destruct (Nat.ltb_spec (e - s) (length p)); [done|lia]. }
    assert (Hwl : length (write_at s p (ws_buf ws)) = blen w).
    { unfold write_at. rewrite !app_length, take_length, drop_length. fold len. lia. }
    case_match eqn:Ef.
    - unfold finish_wave in Ho. cbn [set_waves r_slab r_written r_M r_waves set_slab] in Ho.
      assert (S1 : sane (set_waves r0 (delete w (r_waves r0)))).
      { destruct S0. constructor; try done. cbn. intros w' ws' Hw'. apply lookup_delete_Some in Hw' as [_ ?]. eauto. }
      set (r1 := set_waves r0 (delete w (r_waves r0))) in *.
      destruct (dec _); [|by injection Ho as <- <-].
      case_match; [by injection Ho as <- <-|].
      assert (S2 : forall a b, sane (set_slab r1 a b)) by (intros; destruct S1; by constructor).
      unfold set_slab, r1, set_waves in S2. cbn in S2.
      case_bool_decide; [case_match|]; injection Ho as <- <-; (split; [done|]; apply S2).
    - injection Ho as <- <-. split; [done|]. destruct S0. constructor; try done. cbn.
      intros w' ws' Hw'. apply lookup_insert_Some in Hw' as [[<- <-]|[_ ?]]; [by split|eauto].
  Qed.

  Lemma sane_run l : forall r,
    sane r -> Forall (fun x => (x.1.2 < K)%nat) l ->
    Forall (fun st => st <> SPanic) (run dec r ((fun x => decoded K x.1.1 x.1.2 x.2) <$> l)).1.
  Proof.
    induction l as [|[[w i] p] l IH]; intros r S Hl; [constructor|].
    apply Forall_cons in Hl as [Hi Hl]. cbn [fst snd] in Hi.
    cbn [fmap list_fmap fst snd]. unfold decoded at 1. cbn [run].
    destruct (on_packet dec r (w * K + i) w p) as [st r'] eqn:Eo.
    destruct (sane_packet _ _ _ _ _ _ S Hi Eo) as [Hst S'].
    specialize (IH r' S' Hl). destruct (run dec r' _) as [sts r''] eqn:Er. cbn [fst] in *. by constructor.
  Qed.
End hostile.

(** ** A relay that swaps two waves *)
Lemma swap01_ge w : (2 <= w)%nat -> swap01 w = w.
Proof. destruct w as [|[|w]]; [lia|lia|done]. Qed.

Lemma list_fmap_ext_seq {A} (f g : nat -> A) n :
  (forall i, (i < n)%nat -> f i = g i) -> f <$> seq 0 n = g <$> seq 0 n.
Proof.
  intros H. apply list_eq. intros i. rewrite !list_lookup_fmap.
  destruct (decide (i < n)%nat).
  - rewrite lookup_seq_lt by done. cbn. by rewrite H.
  - by rewrite lookup_seq_ge by lia.
Qed.

Section relay.
  Context (mcl : N -> N) (K : N) (enc : nat -> list N -> list N) (dec : list N -> option (list N)).
  Context (x y rest : list N) (hybrid : bool).
  Let M := wave_plain mcl K.
  Let Mn := N.to_nat M.
  Let Kn := N.to_nat K.
  Let Pn := N.to_nat (get_max_packet_size mcl).
  Let enc' (w : nat) := enc (swap01 w).
  Let pt := x ++ y ++ rest.
  Let pt' := y ++ x ++ rest.
  Context (OK : cipher_ok mcl K enc dec (exact_layout None hybrid)).
  Context (Hx : length x = Mn) (Hy : length y = Mn).
  Context (Hrest : N.of_nat (length rest) mod M <> 0).

  Lemma M_pos : 0 < M.
  Proof. apply wave_plain_pos. apply (ok_K _ _ _ _ _ OK). Qed.
  Lemma len_eq : length pt' = length pt.
  Proof. unfold pt, pt'. rewrite !app_length. lia. Qed.
  Lemma len_mod : N.of_nat (length pt) = N.of_nat (length rest) + 2 * M.
  Proof. unfold pt. rewrite !app_length, Hx, Hy. unfold Mn. lia. Qed.
  Lemma Hp : N.of_nat (length pt) mod M <> 0.
  Proof. rewrite len_mod, N.mod_add; [done|]. pose proof M_pos. lia. Qed.
  Lemma Hp' : N.of_nat (length pt') mod M <> 0.
  Proof. rewrite len_eq. apply Hp. Qed.
  Lemma OK' : cipher_ok mcl K enc' dec (exact_layout None hybrid).
  Proof. destruct OK. constructor; unfold enc'; eauto. Qed.
  Lemma rest_ne : rest <> [].
  Proof. intros ->. apply Hrest. change (N.of_nat (length (@nil N))) with 0. apply N.mod_0_l. pose proof M_pos. lia. Qed.
  Lemma pt_ne : pt <> [] /\ pt' <> [].
  Proof. pose proof rest_ne. unfold pt, pt'. split; intros E; apply app_eq_nil in E as [_ E]; by apply app_eq_nil in E as [_ E]. Qed.
  Lemma gp p rnd : p <> [] -> group_plain p rnd None = p.
  Proof. intros. unfold group_plain. by rewrite bool_decide_eq_false_2. Qed.

  Lemma slice_swap w : take Mn (drop (w * Mn) pt') = take Mn (drop (swap01 w * Mn) pt).
  Proof.
    unfold pt, pt'. destruct w as [|[|w]].
    - cbn [swap01]. rewrite Nat.mul_0_l, Nat.mul_1_l, drop_0.
      rewrite take_app_alt by done. rewrite drop_app_alt by done. by rewrite take_app_alt.
    - cbn [swap01]. rewrite Nat.mul_0_l, Nat.mul_1_l, drop_0.
      rewrite drop_app_alt by done. rewrite !take_app_alt by done. done.
    - rewrite swap01_ge by lia. replace (S (S w) * Mn)%nat with (Mn + (Mn + w * Mn))%nat by lia.
      rewrite !(drop_app_ge _ _ (Mn + (Mn + w * Mn))) by lia. rewrite Hx, Hy.
      rewrite !Nat.add_sub_swap, !Nat.sub_diag, !Nat.add_0_l by lia.
      rewrite !(drop_app_ge _ _ (Mn + w * Mn)) by lia. by rewrite Hx, Hy.
  Qed.

  Lemma relay_same_cfg rnd c pkts :
    send_group mcl K enc pt rnd None hybrid = Some (c, pkts) ->
    exists pkts', send_group mcl K enc' pt' rnd None hybrid = Some (c, pkts').
  Proof.
    destruct pt_ne as [Hne Hne'].
    assert (H1 : N.of_nat (length (group_plain pt rnd None)) mod wave_plain mcl K <> 0)
      by (rewrite gp by done; apply Hp).
    assert (H2 : N.of_nat (length (group_plain pt' rnd None)) mod wave_plain mcl K <> 0)
      by (rewrite gp by done; apply Hp').
    rewrite (send_eq mcl K enc dec pt rnd None hybrid OK H1).
    rewrite (send_eq mcl K enc' dec pt' rnd None hybrid OK' H2).
    rewrite !gp by done. rewrite len_eq. intros E. injection E as <- <-. eexists. f_equal. f_equal.
    rewrite (bool_decide_eq_false_2 (pt = [])), (bool_decide_eq_false_2 (pt' = [])) by done. 
    cbv beta. fold M. fold Mn. f_equal. f_equal.
    pose proof (n_eq mcl K enc pt rnd None H1) as Hn. rewrite gp in Hn by done. fold M in Hn. fold Mn in Hn. rewrite Hn.
    assert (2 <= N.of_nat (length pt) / M).
    { rewrite len_mod. pose proof M_pos. apply N.div_le_lower_bound; lia. }
    unfold enc'. rewrite slice_swap, swap01_ge by lia. done.
  Qed.

  Lemma relay_run rnd c pkts :
    send_group mcl K enc pt rnd None hybrid = Some (c, pkts) ->
    let l := seq 0 (N.to_nat (c_packets_needed c)) in
    exists r, run dec (new_receiver c) (swapped Kn pkts l) = (spec_statuses Kn (dom pkts) ∅ l, r)
      /\ finalize r = pt'.
  Proof.
    intros Hs l. destruct (relay_same_cfg _ _ _ Hs) as [pkts' Hs'].
    destruct pt_ne as [Hne Hne'].
    assert (H1 : N.of_nat (length (group_plain pt rnd None)) mod wave_plain mcl K <> 0)
      by (rewrite gp by done; apply Hp).
    assert (H2 : N.of_nat (length (group_plain pt' rnd None)) mod wave_plain mcl K <> 0)
      by (rewrite gp by done; apply Hp').
    destruct (sent_packets mcl K enc dec pt rnd None hybrid OK H1 c pkts Hs) as [D1 L1].
    destruct (sent_packets mcl K enc' dec pt' rnd None hybrid OK' H2 c pkts' Hs') as [D2 L2].
    pose proof (sent_cfg _ _ _ _ _ _ _ _ _ _ OK H1 Hs) as (F1 & _ & _ & _ & _ & _ & _ & _ & F9 & F10 & F11 & _).
    rewrite gp in L1 by done. rewrite gp in L2 by done. rewrite gp in F9, F10 by done. fold M in F9, F10.
    fold M in L1, L2. fold Mn in L1, L2. fold Kn in L1, L2.
    assert (HF : 2 <= c_full c).
    { rewrite len_mod in F9, F10. set (r := _ mod M) in *. clearbody r. pose proof M_pos. clear - F9 F10 H. nia. }
    assert (HK : (0 < Kn)%nat) by (pose proof (ok_K _ _ _ _ _ OK); unfold Kn; lia).
    assert (Hneed : (2 * Kn <= N.to_nat (c_packets_needed c))%nat).
    { rewrite F1. unfold Kn. assert (2 * K <= c_full c * K) by (apply N.mul_le_mono_r; lia). clear - H F1. lia. }
    assert (HE : swapped Kn pkts l = arrivals Kn pkts' l).
    { unfold swapped, arrivals. apply list_fmap_ext_seq. intros s Hsl. f_equal.
      assert (HSE : s = (s / Kn * Kn + s mod Kn)%nat) by (rewrite Nat.mul_comm; apply Nat.div_mod; lia).
      assert (Hm : (s mod Kn < Kn)%nat) by (apply Nat.mod_upper_bound; lia).
      rewrite L2 by done. rewrite L1.
      - cbn [from_option id]. unfold enc'. rewrite slice_swap.
        assert (((swap01 (s / Kn) * Kn + s mod Kn) mod Kn = s mod Kn)%nat) as ->.
        { rewrite Nat.add_comm, Nat.mod_add, Nat.mod_mod by lia. done. }
        assert (((swap01 (s / Kn) * Kn + s mod Kn) / Kn = swap01 (s / Kn))%nat) as ->; [|done].
        rewrite Nat.div_add_l by lia. rewrite (Nat.div_small (s mod Kn)) by done. lia.
      - destruct (s / Kn)%nat as [|[|q]] eqn:Eq; cbn [swap01]; clear - HSE Hm Hneed Hsl; lia. }
    rewrite HE.
    assert (HD : dom pkts = dom pkts') by (by rewrite D1, D2). rewrite HD.
    pose proof (reassembly mcl K enc' dec pt' rnd None hybrid OK' H2 c pkts' l Hs') as HM.
    destruct HM as (r & Hr & Hfin).
    - rewrite D2. apply Forall_forall. intros s Hin. unfold l in Hin. apply elem_of_seq in Hin. apply elem_of_set_seq. lia.
    - exists r. split; [exact Hr|]. rewrite Hfin.
      + rewrite bool_decide_eq_false_2 by done. by apply gp.
      + rewrite D2. intros s Hin. apply elem_of_list_to_set. unfold l. apply elem_of_seq. apply elem_of_set_seq in Hin. lia.
  Qed.
End relay.
