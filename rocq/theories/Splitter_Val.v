(** Proofs about the group description, acknowledgements and hostile input. *)
From Coq Require Import ZifyBool ZifyNat ZifyN.
From stdpp Require Import prelude gmap.
From Verif Require Import Splitter_Model Splitter_Spec Splitter_Proofs Splitter_Sender Splitter_Main.
Local Open Scope N_scope.

Lemma ck_Some b x y : ck b x = Some y <-> x = y /\ x < b.
Proof. unfold ck. destruct (N.ltb_spec x b); naive_solver lia. Qed.
Lemma ck_lt b x : x < b -> ck b x = Some x.
Proof. intros. by apply ck_Some. Qed.

Record valid (c : cfg) : Prop := {
  v_plen : c_plaintext_length c <= MAX_BYTES_PER_GROUP;
  v_P : c_max_payload_size c <> 0; v_K : c_max_packets_per_wave c <> 0;
  v_wc : c_wave_count c <> 0; v_need : c_packets_needed c <> 0;
  v_part : c_partial c <= 1;
  v_waves : c_full c + c_partial c = c_wave_count c;
  v_packets : c_full c * c_max_packets_per_wave c + c_packets_last c = c_packets_needed c;
  v_last : 0 < c_packets_last c <= c_max_packets_per_wave c;
  v_lastp : c_last_payload_size c <= c_max_payload_size c;
  v_plain : c_last_plain c <= c_max_plain c;
  v_cover : c_full c * c_max_plain c + c_partial c * c_last_plain c = c_plaintext_length c;
  v_alloc : c_plaintext_length c + c_full c * c_max_payload_size c * c_max_packets_per_wave c
            + ((c_packets_last c - 1) * c_max_payload_size c + c_last_payload_size c)
            + (c_packets_needed c / 8 + 1) + (c_wave_count c / 8 + 1)
            + c_wave_count c * PER_WAVE_OVERHEAD_BYTES <= MAX_RECEIVER_ALLOCATION }.

Lemma validate_valid c : validate c = true -> valid c.
Proof.
  unfold validate. 
  destruct (N.ltb_spec MAX_BYTES_PER_GROUP (c_plaintext_length c)); [done|].
  destruct (N.eqb_spec (c_max_payload_size c) 0); [done|].
  destruct (N.eqb_spec (c_max_packets_per_wave c) 0); [done|].
  destruct (N.eqb_spec (c_wave_count c) 0); [done|].
  destruct (N.eqb_spec (c_packets_needed c) 0); [done|]. cbn [orb].
  destruct (N.ltb_spec 1 (c_partial c)); [done|].
  destruct (ck u32 (c_full c + c_partial c)) as [dw|] eqn:E1; [|done]. apply ck_Some in E1 as [<- E1].
  destruct (N.eqb_spec (c_full c + c_partial c) (c_wave_count c)); [|done]. cbn [negb].
  destruct (ck u32 (c_full c * c_max_packets_per_wave c)) as [x2|] eqn:E2; [|done].
  apply ck_Some in E2 as [<- E2]. cbn [mbind option_bind].
  destruct (ck u32 _) as [x3|] eqn:E3; [|done]. apply ck_Some in E3 as [<- E3].
  destruct (N.eqb_spec (c_full c * c_max_packets_per_wave c + c_packets_last c) (c_packets_needed c)); [|done].
  cbn [negb]. destruct (N.eqb_spec (c_packets_last c) 0); [done|]. cbn [orb].
  destruct (N.ltb_spec (c_max_packets_per_wave c) (c_packets_last c)); [done|].
  destruct (N.ltb_spec (c_max_payload_size c) (c_last_payload_size c)); [done|].
  destruct (N.ltb_spec (c_max_plain c) (c_last_plain c)); [done|].
  destruct (ck u64 (c_full c * c_max_plain c)) as [x4|] eqn:E4; [|done]. apply ck_Some in E4 as [<- E4].
  cbn [mbind option_bind].
  destruct (ck u64 (c_partial c * c_last_plain c)) as [x5|] eqn:E5; [|done]. apply ck_Some in E5 as [<- E5].
  cbn [mbind option_bind].
  destruct (ck u64 (c_full c * c_max_plain c + c_partial c * c_last_plain c)) as [x6|] eqn:E6; [|done].
  apply ck_Some in E6 as [<- E6].
  destruct (N.eqb_spec (c_full c * c_max_plain c + c_partial c * c_last_plain c) (c_plaintext_length c)); [|done].
  cbn [negb].
  destruct (ck u64 (c_full c * c_max_payload_size c)) as [x7|] eqn:E7; [|done]. apply ck_Some in E7 as [<- E7].
  cbn [mbind option_bind].
  destruct (ck u64 (c_full c * c_max_payload_size c * c_max_packets_per_wave c)) as [x8|] eqn:E8; [|done].
  apply ck_Some in E8 as [<- E8].
  destruct (ck u64 ((c_packets_last c - 1) * c_max_payload_size c)) as [x9|] eqn:E9; [|done].
  apply ck_Some in E9 as [<- E9]. cbn [mbind option_bind].
  destruct (ck u64 ((c_packets_last c - 1) * c_max_payload_size c + c_last_payload_size c)) as [x10|] eqn:E10; [|done].
  apply ck_Some in E10 as [<- E10].
  destruct (ck u64 (c_wave_count c * PER_WAVE_OVERHEAD_BYTES)) as [x11|] eqn:E11; [|done].
  apply ck_Some in E11 as [<- E11].
  do 5 (match goal with |- context [ck u64 ?e] => 
     let x := fresh "x" in let E := fresh "E" in destruct (ck u64 e) as [x|] eqn:E; [|done];
     apply ck_Some in E as [<- E]; cbn [mbind option_bind] end).
  destruct (N.ltb_spec MAX_RECEIVER_ALLOCATION
   (c_plaintext_length c + c_full c * c_max_payload_size c * c_max_packets_per_wave c
            + ((c_packets_last c - 1) * c_max_payload_size c + c_last_payload_size c)
            + (c_packets_needed c / 8 + 1) + (c_wave_count c / 8 + 1)
            + c_wave_count c * PER_WAVE_OVERHEAD_BYTES)); [done|].
  intros _. constructor; try done. lia.
Qed.

Lemma valid_validate c :
  valid c -> c_wave_count c < u32 -> c_packets_needed c < u32 -> validate c = true.
Proof.
  intros V Hw Hp. unfold validate.
  assert (Hu : MAX_RECEIVER_ALLOCATION < u64) by reflexivity.
  assert (Hu2 : MAX_BYTES_PER_GROUP < u64) by reflexivity.
  destruct V as [V1 V2 V3 V4 V5 V6 V7 V8 V9 V10 V11 V12 V13].
  set (cn := c_packets_needed c) in *. set (K := c_max_packets_per_wave c) in *.
  set (pl := c_plaintext_length c) in *. set (P := c_max_payload_size c) in *.
  set (lp := c_last_payload_size c) in *. set (f := c_full c) in *. set (pa := c_partial c) in *.
  set (wc := c_wave_count c) in *. set (mp := c_max_plain c) in *. set (lpl := c_last_plain c) in *.
  set (kl := c_packets_last c) in *. clearbody cn K pl P lp f pa wc mp lpl kl.
  destruct (N.ltb_spec MAX_BYTES_PER_GROUP pl); [lia|].
  destruct (N.eqb_spec P 0); [done|].
  destruct (N.eqb_spec K 0); [done|].
  destruct (N.eqb_spec wc 0); [done|].
  destruct (N.eqb_spec cn 0); [done|]. cbn [orb].
  destruct (N.ltb_spec 1 pa); [lia|].
  rewrite V7, ck_lt by done. rewrite N.eqb_refl. cbn [negb].
  rewrite ck_lt by lia. cbn [mbind option_bind]. rewrite V8, ck_lt by done. rewrite N.eqb_refl. cbn [negb].
  destruct (N.eqb_spec kl 0); [lia|]. cbn [orb].
  destruct (N.ltb_spec K kl); [lia|].
  destruct (N.ltb_spec P lp); [lia|].
  destruct (N.ltb_spec mp lpl); [lia|].
  rewrite ck_lt by lia. cbn [mbind option_bind]. rewrite ck_lt by lia. cbn [mbind option_bind].
  rewrite ck_lt by lia. rewrite V12, N.eqb_refl. cbn [negb].
  assert (f * P <= f * P * K) by (rewrite <- (N.mul_1_r (f * P)) at 1; apply N.mul_le_mono_l; lia).
  set (fc := f * P * K) in *. set (lc := (kl - 1) * P) in *. set (ov := wc * PER_WAVE_OVERHEAD_BYTES) in *.
  set (a1 := cn / 8) in *. set (a2 := wc / 8) in *. set (fp := f * P) in *. clearbody lc ov a1 a2. assert (0 <= fc) by lia.
  rewrite ck_lt by lia. cbn [mbind option_bind]. change (fp * K) with (f * P * K). fold fc. rewrite ck_lt by lia.
  rewrite ck_lt by lia. cbn [mbind option_bind]. rewrite ck_lt by lia. rewrite ck_lt by lia.
  rewrite ck_lt by lia. cbn [mbind option_bind].
  rewrite ck_lt by lia. cbn [mbind option_bind]. rewrite ck_lt by lia. cbn [mbind option_bind].
  rewrite ck_lt by lia. cbn [mbind option_bind]. rewrite ck_lt by lia.
  match goal with |- negb (?a <? ?b) = true => destruct (N.ltb_spec a b); [lia|done] end.
Qed.

(** ** The sender's own description *)
Lemma sent_cfg mcl K enc dec plain rnd revfs hybrid c pkts :
  cipher_ok mcl K enc dec (exact_layout revfs hybrid) ->
  let pt := group_plain plain rnd revfs in
  let M := wave_plain mcl K in
  N.of_nat (length pt) mod M <> 0 ->
  send_group mcl K enc plain rnd revfs hybrid = Some (c, pkts) ->
  let plen := N.of_nat (length pt) in
  c_packets_needed c = c_full c * K + c_packets_last c
    /\ c_max_packets_per_wave c = K /\ c_plaintext_length c = plen
    /\ c_max_payload_size c = get_max_packet_size mcl /\ c_partial c = 1 /\ c_wave_count c = c_full c + 1
    /\ c_max_plain c = M /\ c_last_plain c = plen mod M
    /\ c_full c * M + plen mod M = plen /\ 0 < plen mod M < M
    /\ 0 < c_packets_last c <= K /\ 0 < c_last_payload_size c <= get_max_packet_size mcl.
Proof.
  intros OK pt M Hp Hs plen.
  pose proof (cfg_facts mcl K enc dec plain rnd revfs hybrid OK Hp) as HF.
  rewrite (send_eq mcl K enc dec plain rnd revfs hybrid OK Hp) in Hs. injection Hs as <- <-. exact HF.
Qed.

Lemma accepts mcl enc dec plain rnd revfs hybrid c pkts :
  cipher_ok mcl 14 enc dec (exact_layout revfs hybrid) ->
  480 <= get_max_packet_size mcl <= 100000 ->
  let pt := group_plain plain rnd revfs in
  N.of_nat (length pt) <= MAX_BYTES_PER_GROUP ->
  N.of_nat (length pt) mod (wave_plain mcl 14) <> 0 ->
  send_group mcl 14 enc plain rnd revfs hybrid = Some (c, pkts) ->
  validate c = true.
Proof.
  intros OK HP pt Hlen Hp Hs.
  pose proof (sent_cfg _ _ _ _ _ _ _ _ _ _ OK Hp Hs) as HF. fold pt in HF.
  set (plen := N.of_nat (length pt)) in *. clearbody plen.
  destruct HF as (F1 & F2 & F3 & F4 & F5 & F6 & F7 & F8 & F9 & F10 & F11 & F12).
  assert (HM : wave_plain mcl 14 = 13 * get_max_packet_size mcl + 480).
  { unfold wave_plain, MAX_WAVEFORM_PACKET_SIZE. lia. }
  rewrite HM in *. set (P := get_max_packet_size mcl) in *. clearbody P.
  set (r := plen mod (13 * P + 480)) in *. clearbody r.
  assert (HMB : MAX_BYTES_PER_GROUP = 10485760) by done.
  assert (HMA : MAX_RECEIVER_ALLOCATION = 41943040) by done.
  assert (Hu : u32 = 4294967296) by done.
  assert (exists z, c_full c * P = z) as [z Hz] by eauto.
  assert (F9' : 13 * z + 480 * c_full c + r = plen) by (rewrite <- Hz; lia).
  assert (exists y, (c_packets_last c - 1) * P = y) as [y Hy] by eauto.
  assert (y <= 13 * P) by (rewrite <- Hy; apply N.mul_le_mono_r; lia).
  apply valid_validate; [constructor| |]; try lia.
  all: rewrite ?F3, ?F4, ?F5, ?F6, ?F7, ?F8, ?F2, ?F1, ?Hz, ?Hy; try lia.
  change PER_WAVE_OVERHEAD_BYTES with 128.
  assert ((c_full c * 14 + c_packets_last c) / 8 <= c_full c * 14 + c_packets_last c) by (apply N.div_le_upper_bound; lia).
  assert ((c_full c + 1) / 8 <= c_full c + 1) by (apply N.div_le_upper_bound; lia).
  lia.
Qed.

Lemma valid_last_pos c : validate c = true -> c_packets_last c <> 0.
Proof. intros H%validate_valid. pose proof (v_last _ H). lia. Qed.

Lemma rejects mcl K enc plain rnd c pkts :
  0 < K ->
  let pt := group_plain plain rnd None in
  N.of_nat (length pt) mod (wave_plain mcl K) = 0 ->
  send_group mcl K enc plain rnd None false = Some (c, pkts) -> validate c = false.
Proof.
  intros HK pt Hp Hs. apply not_true_is_false. intros HV%valid_last_pos. apply HV. clear HV.
  unfold send_group, metadata in Hs. fold pt in Hs.
  set (plen := N.of_nat (length pt)) in *. clearbody plen.
  destruct (N.eqb_spec plen 0) as [|Hpl]; [done|].
  pose proof (wave_plain_pos mcl K HK). set (M := wave_plain mcl K) in *.
  unfold wave_layout in Hs. destruct (N.ltb_spec plen M).
  { rewrite N.mod_small in Hp by done. lia. }
  rewrite Hp in Hs. change (0 =? 0) with true in Hs. cbn [negb andb] in Hs. cbn iota in Hs.
  injection Hs as <- _. cbn [new_refresh c_packets_last]. unfold div_ceil.
  rewrite N.mod_0_l, N.div_0_l; [done| |]; pose proof (max_packet_pos mcl); lia.
Qed.

(** ** The symmetric ciphers *)
Lemma sym_cipher_ok enc dec K ex : 0 < K -> sym_ok enc dec -> cipher_ok sym_mcl K enc dec ex.
Proof.
  intros HK [H1 H2].
  assert (HP : get_max_packet_size sym_mcl = 504) by done.
  assert (HM : wave_plain sym_mcl K = 504 * K - 24) by done.
  constructor; try done; rewrite ?HP, ?HM.
  - intros w p Hp. unfold wave_fits. rewrite H2, Hp. lia.
  - intros w p Hp. rewrite H2. lia.
  - intros _ w p. rewrite H2. unfold sym_mcl. lia.
Qed.

(** ** Acknowledgements *)
Definition all_waves (n : N) : gset N := list_to_set (N.of_nat <$> seq 0 (N.to_nat n)).
Lemma elem_all_waves n x : x ∈ all_waves n <-> x < n.
Proof.
  unfold all_waves. rewrite elem_of_list_to_set, elem_of_list_fmap. split.
  - intros (y & -> & Hy%elem_of_seq). lia.
  - intros Hx. exists (N.to_nat x). split; [lia|]. apply elem_of_seq. lia.
Qed.
Lemma size_all_waves n : size (all_waves n) = N.to_nat n.
Proof.
  unfold all_waves. rewrite size_list_to_set, fmap_length, seq_length; [done|].
  apply NoDup_fmap_2; [apply _|apply NoDup_seq].
Qed.

Section acks.
  Context (c : cfg) (K L : N).
  Context (HK : c_max_packets_per_wave c = K) (HK0 : 0 < K) (HL : c_packets_last c = L) (HL0 : 0 < L).
  Context (Hn : c_packets_needed c = c_full c * K + L) (Hw : c_wave_count c = c_full c + 1).
  Let W := c_wave_count c.

  Definition credit (A : gset N) : N :=
    N.of_nat (size (A ∩ all_waves (c_full c))) * K + (if bool_decide (c_full c ∈ A) then L else 0).

  Lemma credit_full A : credit A = c_packets_needed c <-> (forall x, x < W -> x ∈ A).
  Proof.
    unfold credit. rewrite Hn.
    assert (Hs : (size (A ∩ all_waves (c_full c)) <= N.to_nat (c_full c))%nat).
    { rewrite <- size_all_waves. apply subseteq_size. set_solver. }
    split.
    - intros He.
      assert (Hle : N.of_nat (size (A ∩ all_waves (c_full c))) * K <= c_full c * K) by (apply N.mul_le_mono_r; lia).
      case_bool_decide as Hin; [|nia].
      assert (Heq : N.of_nat (size (A ∩ all_waves (c_full c))) = c_full c) by nia.
      assert (Hsub : all_waves (c_full c) ⊆ A).
      { destruct (decide (all_waves (c_full c) ⊆ A)) as [|Hns]; [done|].
        assert (A ∩ all_waves (c_full c) ⊂ all_waves (c_full c)) as HS%subset_size by set_solver.
        rewrite size_all_waves in HS. lia. }
      intros x Hx. unfold W in Hx. destruct (decide (x = c_full c)) as [->|]; [done|].
      apply Hsub. apply elem_all_waves. lia.
    - intros HA. rewrite bool_decide_eq_true_2 by (apply HA; unfold W; lia). f_equal.
      replace (A ∩ all_waves (c_full c)) with (all_waves (c_full c)).
      + rewrite size_all_waves. lia.
      + apply set_eq. intros x. rewrite elem_of_intersection, elem_all_waves. split; [|naive_solver].
        intros. split; [|done]. apply HA. unfold W. lia.
  Qed.

  Lemma credit_add A w : w < W -> w ∉ A -> credit ({[w]} ∪ A) = credit A + packets_in_wave c w.
  Proof.
    intros Hlt Hnin. unfold credit, packets_in_wave. rewrite Hw, HK, HL.
    replace (c_full c + 1 - 1) with (c_full c) by lia.
    destruct (N.eqb_spec w (c_full c)) as [->|Hne].
    - rewrite (bool_decide_eq_true_2 (_ ∈ {[_]} ∪ _)) by set_solver.
      rewrite (bool_decide_eq_false_2 (_ ∈ A)) by done.
      replace (({[c_full c]} ∪ A) ∩ all_waves (c_full c)) with (A ∩ all_waves (c_full c)); [lia|].
      apply set_eq. intros x. rewrite !elem_of_intersection, elem_of_union, elem_of_singleton, !elem_all_waves.
      split; [naive_solver|]. intros [[->|?] ?]; [lia|done].
    - rewrite (bool_decide_ext (c_full c ∈ {[w]} ∪ A) (c_full c ∈ A)) by set_solver.
      replace (({[w]} ∪ A) ∩ all_waves (c_full c)) with ({[w]} ∪ (A ∩ all_waves (c_full c))).
      + rewrite size_union by set_solver. rewrite size_singleton. lia.
      + apply set_eq. intros x. rewrite elem_of_union, !elem_of_intersection, elem_of_union, elem_of_singleton, !elem_all_waves.
        split; [|naive_solver]. intros [->|?]; [|naive_solver]. split; [by left|]. unfold W in Hlt. lia.
  Qed.

  Lemma credit_ext A B : (forall x, x < W -> x ∈ A <-> x ∈ B) -> credit A = credit B.
  Proof.
    intros H. unfold credit. f_equal.
    - f_equal. f_equal. f_equal. apply set_eq. intros x. rewrite !elem_of_intersection, !elem_all_waves.
      split; intros [??]; (split; [|done]); apply H; unfold W; try done; lia.
    - rewrite (bool_decide_ext (c_full c ∈ A) (c_full c ∈ B)); [done|]. apply H. unfold W. lia.
  Qed.

  Lemma acks_spec l : forall A t,
    t_cfg t = c -> t_received t = credit A ->
    NoDup (filter (fun w => w < W) l) -> (forall w, w ∈ l -> w < W -> w ∉ A) ->
    (run_acks t l).1 = spec_acks W A l.
  Proof.
    induction l as [|w l IH]; intros A t Ht Hr Hnd Hdis; [done|]. cbn [run_acks spec_acks].
    unfold on_ack. rewrite Ht. fold W. 
    assert (HB : spec_ack W A w = if W <=? w then false else credit ({[w]} ∪ A) =? c_packets_needed c).
    { unfold spec_ack. destruct (N.leb_spec W w) as [Hge|Hlt].
      - destruct (N.ltb_spec w W); [lia|done].
      - destruct (N.ltb_spec w W); [|lia]. cbn [andb]. 
        destruct (N.eqb_spec (credit ({[w]} ∪ A)) (c_packets_needed c)) as [He|He].
        + apply bool_decide_eq_true_2. intros x Hx. apply (proj1 (credit_full _) He). by apply elem_all_waves.
        + apply bool_decide_eq_false_2. intros HF. apply He. apply (proj2 (credit_full _)). intros x Hx. apply HF.
          by apply elem_all_waves. }
    rewrite HB. clear HB. destruct (N.leb_spec W w) as [Hge|Hlt].
    - specialize (IH ({[w]} ∪ A) t Ht).
      destruct (run_acks t l) as [bs t'] eqn:E. cbn [fst] in *. f_equal. apply IH.
      + rewrite Hr. apply credit_ext. intros x Hx. rewrite elem_of_union, elem_of_singleton. 
        split; [naive_solver|]. intros [->|?]; [lia|done].
      + rewrite filter_cons_False in Hnd by lia. done.
      + intros x Hx Hxl. rewrite elem_of_union, elem_of_singleton. intros [->|?]; [lia|].
        by apply (Hdis x); [right|..].
    - rewrite filter_cons_True in Hnd by done. apply NoDup_cons in Hnd as [Hnin Hnd].
      assert (HwA : w ∉ A) by (apply Hdis; [left|done]).
      rewrite credit_add by done. rewrite Hr.
      match goal with |- context [run_acks ?t0 l] => specialize (IH ({[w]} ∪ A) t0 eq_refl);
        destruct (run_acks t0 l) as [bs t'] eqn:E end.
      cbn [fst] in *. f_equal. apply IH; [|done|].
      + cbn [t_received]. by rewrite credit_add.
      + intros x Hx Hxl. rewrite elem_of_union, elem_of_singleton. intros [->|?].
        * apply Hnin. apply elem_of_list_filter. done.
        * by apply (Hdis x); [right|..].
  Qed.
End acks.
