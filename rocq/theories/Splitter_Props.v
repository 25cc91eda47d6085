(** C13, C14, C15, C50, C51, C52: splitting a transfer into packets and putting it together again. *)
From Coq Require Import ZifyBool ZifyNat ZifyN.
From stdpp Require Import prelude gmap.
From Verif Require Import Splitter_Model Splitter_Spec Splitter_Proofs Splitter_Sender Splitter_Main Splitter_Val Splitter_Host.
Local Open Scope N_scope.

(** A cipher for the examples: the plaintext followed by 24 zero bytes *)
Definition toy_enc (w : nat) (p : list N) : list N := p ++ replicate 24 0.
Definition toy_dec (ct : list N) : option (list N) := Some (take (length ct - 24) ct).
Definition reps (n b : N) : list N := replicate (N.to_nat n) b.
Lemma length_reps n b : N.of_nat (length (reps n b)) = n.
Proof. unfold reps. rewrite replicate_length. lia. Qed.
Lemma send_some mcl K enc plain rnd revfs hybrid :
  group_plain plain rnd revfs <> [] -> send_group mcl K enc plain rnd revfs hybrid <> None.
Proof.
  intros Hg. unfold send_group, metadata. set (pt := group_plain _ _ _) in *. clearbody pt.
  destruct (N.eqb_spec (N.of_nat (length pt)) 0) as [E|_]; [destruct pt; [done|cbn in E; lia]|].
  destruct (wave_layout _ _) as [[? ?] ?]. destruct (_ && _); discriminate.
Qed.
Lemma toy_ok : sym_ok toy_enc toy_dec.
Proof.
  unfold toy_enc, toy_dec. split.
  - intros _ p. rewrite app_length, replicate_length, Nat.add_sub. by rewrite take_app.
  - intros _ p. rewrite app_length, replicate_length. done.
Qed.

(** ** C13: whatever order the packets arrive in, and however often, the receiver reports exactly the
    wave and group completions, and rebuilds the transferred bytes. Missing: transfers whose length
    is a multiple of the wave size, where it is false (below). *)
Theorem C13_reassembly_partial mcl K enc dec plain rnd revfs hybrid :
  cipher_ok mcl K enc dec (exact_layout revfs hybrid) ->
  N.of_nat (length (group_plain plain rnd revfs)) mod wave_plain mcl K <> 0 ->
  exists c pkts, send_group mcl K enc plain rnd revfs hybrid = Some (c, pkts) /\
  forall l, Forall (fun s => s ∈ dom pkts) l ->
    exists r, run dec (new_receiver c) (arrivals (N.to_nat K) pkts l)
              = (spec_statuses (N.to_nat K) (dom pkts) ∅ l, r)
      /\ (dom pkts ⊆ (list_to_set l : gset nat) ->
          finalize r = if bool_decide (plain = []) then [] else group_plain plain rnd revfs).
Proof.
  intros OK Hp. pose proof (send_eq mcl K enc dec plain rnd revfs hybrid OK Hp) as Hs.
  eexists _, _. split; [exact Hs|]. intros l Hl.
  exact (reassembly mcl K enc dec plain rnd revfs hybrid OK Hp _ _ l Hs Hl).
Qed.
Print Assumptions C13_reassembly_partial.

(** For AES-GCM, ChaCha20-Poly1305 and Ascon, with the port map of the code *)
Theorem C13_symmetric_partial enc dec plain rnd l :
  sym_ok enc dec -> plain <> [] -> N.of_nat (length plain) mod 7032 <> 0 ->
  exists c pkts, send_group sym_mcl DRILL_RANGE enc plain rnd None false = Some (c, pkts) /\
  (Forall (fun s => s ∈ dom pkts) l -> dom pkts ⊆ (list_to_set l : gset nat) ->
   exists r sts w, run dec (new_receiver c) (arrivals 14 pkts l) = (sts, r)
     /\ SComplete w ∈ sts /\ finalize r = plain).
Proof.
  intros Hok Hne Hm.
  assert (Hg : group_plain plain rnd None = plain) by (unfold group_plain; by rewrite bool_decide_eq_false_2).
  destruct (C13_reassembly_partial sym_mcl DRILL_RANGE enc dec plain rnd None false) as (c & pkts & Hs & H).
  - by apply sym_cipher_ok.
  - by rewrite Hg.
  - exists c, pkts. split; [done|]. intros Hl Hall. destruct (H l Hl) as (r & Hr & Hf). rewrite Hg in Hf.
    rewrite bool_decide_eq_false_2 in Hf by done. 
    exists r, (spec_statuses 14 (dom pkts) ∅ l).
    assert (HB : forall l (B : gset nat), dom pkts ⊆ list_to_set l ∪ B -> ~ dom pkts ⊆ B ->
       exists w, SComplete w ∈ spec_statuses 14 (dom pkts) B l).
    { clear. induction l as [|s l IH]; intros B H1 H2.
      - set_solver.
      - cbn [spec_statuses]. unfold spec_status.
        destruct (decide (dom pkts ⊆ {[s]} ∪ B)) as [Hd|Hd].
        + exists (s / 14)%nat. assert (s ∉ B) by set_solver.
          rewrite (bool_decide_eq_false_2 (s ∈ B)) by done. rewrite (bool_decide_eq_true_2 (_ ⊆ _)) by done. left.
        + destruct (IH ({[s]} ∪ B)) as [w Hw]; [set_solver|done|]. exists w. by right. }
    destruct (HB l ∅) as [w Hw]; [set_solver| |].
    + pose proof (sent_cfg sym_mcl DRILL_RANGE enc dec plain rnd None false c pkts) as HC. cbv zeta in HC.
      rewrite Hg in HC. destruct HC as (F1 & _ & _ & _ & _ & _ & _ & _ & _ & _ & F11 & _);
        [by apply sym_cipher_ok|done|done|].
      destruct (sent_packets sym_mcl DRILL_RANGE enc dec plain rnd None false) with (c := c) (pkts := pkts) as [D _];
        [by apply sym_cipher_ok|by rewrite Hg|done|].
      rewrite D. intros Hsub. specialize (Hsub 0%nat). rewrite elem_of_set_seq in Hsub.
      apply (not_elem_of_empty (C := gset nat) 0%nat). apply Hsub. lia.
    + exists w. split_and!; [exact Hr|done|by apply Hf].
Qed.
Print Assumptions C13_symmetric_partial.

(** 15 packets in two waves, reversed and with a repetition *)
Example C13_example :
  match send_group sym_mcl DRILL_RANGE toy_enc (reps 7033 7) [] None false with
  | Some (c, pkts) =>
      let '(sts, r) := run toy_dec (new_receiver c) (arrivals 14 pkts (rev (seq 0 15) ++ [3%nat])) in
      sts = SWave 1 :: replicate 13 SInsert ++ [SComplete 0; SAlready] /\ finalize r = reps 7033 7
  | None => False end.
Proof. vm_compute. split; reflexivity. Qed.

(** ** C13, C14 are false for lengths that are a multiple of the wave size: the description says that
    the last wave has no packets; it is refused by the peer, and the receiver built from it does not
    complete. *)
Theorem C13_exact_multiple_refuted :
  ~ (forall enc dec plain rnd c pkts, sym_ok enc dec -> plain <> [] ->
       send_group sym_mcl DRILL_RANGE enc plain rnd None false = Some (c, pkts) ->
       exists w, SComplete w ∈ (run dec (new_receiver c) (arrivals 14 pkts (seq 0 14))).1).
Proof.
  intros H.
  destruct (send_group sym_mcl DRILL_RANGE toy_enc (reps 7032 7) [] None false) as [[c pkts]|] eqn:E;
    [|exfalso; revert E; apply send_some; discriminate].
  destruct (H toy_enc toy_dec (reps 7032 7) [] c pkts toy_ok ltac:(done) E) as [w Hw].
  assert (HS : Forall (fun s => match s with SComplete _ => False | _ => True end)
     (match send_group sym_mcl DRILL_RANGE toy_enc (reps 7032 7) [] None false with
      | Some (c, pkts) => (run toy_dec (new_receiver c) (arrivals 14 pkts (seq 0 14))).1 | None => [] end)).
  { vm_compute. repeat constructor. }
  rewrite E in HS. rewrite Forall_forall in HS. exact (HS _ Hw).
Qed.
Print Assumptions C13_exact_multiple_refuted.

(** ** C14: the receiver accepts the description an honest sender computes. Missing: lengths that are
    a multiple of the wave size. The packet size is 504 for the symmetric ciphers. *)
Theorem C14_accepted_partial mcl enc dec plain rnd revfs hybrid c pkts :
  cipher_ok mcl DRILL_RANGE enc dec (exact_layout revfs hybrid) ->
  480 <= get_max_packet_size mcl <= 100000 ->
  N.of_nat (length (group_plain plain rnd revfs)) <= MAX_BYTES_PER_GROUP ->
  N.of_nat (length (group_plain plain rnd revfs)) mod wave_plain mcl DRILL_RANGE <> 0 ->
  send_group mcl DRILL_RANGE enc plain rnd revfs hybrid = Some (c, pkts) ->
  validate c = true.
Proof. apply accepts. Qed.
Print Assumptions C14_accepted_partial.

(** The exact answer for the symmetric ciphers *)
Theorem C14_symmetric_partial enc dec plain rnd c pkts :
  sym_ok enc dec -> plain <> [] -> N.of_nat (length plain) <= MAX_BYTES_PER_GROUP ->
  send_group sym_mcl DRILL_RANGE enc plain rnd None false = Some (c, pkts) ->
  validate c = true <-> N.of_nat (length plain) mod 7032 <> 0.
Proof.
  intros Hok Hne Hlen Hs.
  assert (Hg : group_plain plain rnd None = plain) by (unfold group_plain; by rewrite bool_decide_eq_false_2).
  split.
  - intros Hv Hm. pose proof (rejects sym_mcl DRILL_RANGE enc plain rnd c pkts) as HR. cbv zeta in HR. rewrite Hg in HR.
    rewrite HR in Hv; done.
  - intros Hm. apply (C14_accepted_partial sym_mcl enc dec plain rnd None false c pkts); rewrite ?Hg; try done.
    by apply sym_cipher_ok.
Qed.
Print Assumptions C14_symmetric_partial.

Example C14_example :
  match send_group sym_mcl DRILL_RANGE toy_enc (reps 7033 7) [] None false with
  | Some (c, _) => validate c = true /\ c_packets_needed c = 15 /\ c_wave_count c = 2 | None => False end.
Proof. vm_compute. split_and!; reflexivity. Qed.

Theorem C14_multiples_refuted :
  ~ (forall enc dec plain rnd c pkts, sym_ok enc dec -> plain <> [] ->
       N.of_nat (length plain) <= MAX_BYTES_PER_GROUP ->
       send_group sym_mcl DRILL_RANGE enc plain rnd None false = Some (c, pkts) -> validate c = true).
Proof.
  intros H.
  destruct (send_group sym_mcl DRILL_RANGE toy_enc (reps 7032 7) [] None false) as [[c pkts]|] eqn:E;
    [|exfalso; revert E; apply send_some; discriminate].
  assert (Hv : validate c = true).
  { apply (H toy_enc toy_dec (reps 7032 7) [] c pkts); [apply toy_ok|done| |done]. rewrite length_reps. done. }
  apply (C14_symmetric_partial toy_enc toy_dec (reps 7032 7) [] c pkts) in Hv; [|apply toy_ok|done| |done].
  - rewrite length_reps in Hv. apply Hv. reflexivity.
  - rewrite length_reps. done.
Qed.
Print Assumptions C14_multiples_refuted.

(** ** C15: the sender finishes a group exactly on the acknowledgement that completes the set of its
    waves. Missing: acknowledgements received twice, where it is false. *)
Theorem C15_all_waves_partial mcl K enc dec plain rnd revfs hybrid c pkts acks :
  cipher_ok mcl K enc dec (exact_layout revfs hybrid) ->
  N.of_nat (length (group_plain plain rnd revfs)) mod wave_plain mcl K <> 0 ->
  send_group mcl K enc plain rnd revfs hybrid = Some (c, pkts) ->
  NoDup (filter (fun w => w < c_wave_count c) acks) ->
  (run_acks (new_sender c pkts) acks).1 = spec_acks (c_wave_count c) ∅ acks.
Proof.
  intros OK Hp Hs Hnd.
  pose proof (sent_cfg _ _ _ _ _ _ _ _ _ _ OK Hp Hs) as (F1 & F2 & F3 & F4 & F5 & F6 & F7 & F8 & F9 & F10 & F11 & F12).
  apply (acks_spec c K (c_packets_last c)); try done.
  - exact (ok_K _ _ _ _ _ OK).
  - lia.
  - cbn [new_sender t_received]. unfold credit. rewrite (bool_decide_eq_false_2 (_ ∈ ∅)) by set_solver.
    rewrite (intersection_empty_l_L _ : ∅ ∩ _ = ∅). rewrite size_empty. lia.
Qed.
Print Assumptions C15_all_waves_partial.

(** The acknowledgements of a receiver fed the sender's packets in any order, with repetitions: the
    sender finishes exactly on the one the receiver sent when it had the whole group. *)
Theorem C15_receiver_partial mcl K enc dec plain rnd revfs hybrid c pkts l :
  cipher_ok mcl K enc dec (exact_layout revfs hybrid) ->
  N.of_nat (length (group_plain plain rnd revfs)) mod wave_plain mcl K <> 0 ->
  send_group mcl K enc plain rnd revfs hybrid = Some (c, pkts) ->
  Forall (fun s => s ∈ dom pkts) l ->
  let sts := (run dec (new_receiver c) (arrivals (N.to_nat K) pkts l)).1 in
  (run_acks (new_sender c pkts) (omap ack_of sts)).1 = omap fin_of sts.
Proof.
  intros OK Hp Hs Hl sts.
  pose proof (sent_cfg _ _ _ _ _ _ _ _ _ _ OK Hp Hs) as (F1 & F2 & F3 & F4 & F5 & F6 & F7 & F8 & F9 & F10 & F11 & F12).
  destruct (sent_packets mcl K enc dec plain rnd revfs hybrid OK Hp c pkts Hs) as [D _].
  destruct (reassembly mcl K enc dec plain rnd revfs hybrid OK Hp c pkts l Hs Hl) as (r & Hr & _).
  subst sts. rewrite Hr. cbn [fst]. pose proof (ok_K _ _ _ _ _ OK) as HK.
  assert (Hn : N.to_nat (c_packets_needed c) = (N.to_nat (c_full c) * N.to_nat K + N.to_nat (c_packets_last c))%nat) by lia.
  assert (Hfirst : forall w, w < c_wave_count c ->
    (N.to_nat w * N.to_nat K)%nat ∈ dom pkts /\ N.of_nat (N.to_nat w * N.to_nat K / N.to_nat K) = w).
  { intros w Hw. split.
    + rewrite D. apply elem_of_set_seq. rewrite Hn. rewrite F6 in Hw.
      assert (N.to_nat w * N.to_nat K <= N.to_nat (c_full c) * N.to_nat K)%nat by (apply Nat.mul_le_mono_r; lia). lia.
    + rewrite Nat.div_mul by lia. lia. }
  destruct (ack_step (N.to_nat K) (c_wave_count c) (dom pkts)) with (l := l) (B := ∅ : gset nat) (A := ∅ : gset N) as (A1 & A2 & A3).
  - intros x Hx. rewrite D in Hx. apply elem_of_set_seq in Hx. rewrite F6.
    assert (x / N.to_nat K < S (N.to_nat (c_full c)))%nat; [|lia].
    apply Nat.div_lt_upper_bound; [lia|]. rewrite Nat.mul_succ_r. lia.
  - intros w Hw. exists (N.to_nat w * N.to_nat K)%nat. by apply Hfirst.
  - exact Hl.
  - intros w Hw. split; [set_solver|]. intros Hd. exfalso.
    assert (HX : (N.to_nat w * N.to_nat K)%nat ∈ (∅ : gset nat)); [|set_solver].
    apply Hd.
    all: by apply Hfirst.
  - rewrite <- A1. apply (C15_all_waves_partial mcl K enc dec plain rnd revfs hybrid); try done.
    apply NoDup_filter. exact A2.
Qed.
Print Assumptions C15_receiver_partial.

Example C15_receiver_example :
  match send_group sym_mcl DRILL_RANGE toy_enc (reps 7033 7) [] None false with
  | Some (c, pkts) => (run_acks (new_sender c pkts) [1; 5; 0]).1 = [false; false; true]
  | None => False end.
Proof. vm_compute. reflexivity. Qed.

Lemma acks_ram c l : forall t t', t_cfg t = c -> t_cfg t' = c -> t_received t = t_received t' ->
  (run_acks t l).1 = (run_acks t' l).1.
Proof.
  induction l as [|w l IH]; intros t t' H1 H2 H3; [done|]. cbn [run_acks]. unfold on_ack. rewrite H1, H2, H3.
  destruct (c_wave_count c <=? w).
  - specialize (IH t t' H1 H2 H3). destruct (run_acks t l), (run_acks t' l). cbn [fst] in *. by f_equal.
  - set (a := mk_tx _ _ (t_sent t) c). set (b := mk_tx _ _ (t_sent t') c).
    specialize (IH a b eq_refl eq_refl eq_refl). destruct (run_acks a l), (run_acks b l). cbn [fst] in *. by f_equal.
Qed.

(** Acknowledging one wave twice finishes the group though the other wave was never acknowledged. *)
Theorem C15_duplicate_ack_refuted :
  ~ (forall enc dec plain rnd c pkts acks, sym_ok enc dec -> plain <> [] ->
       N.of_nat (length plain) mod 7032 <> 0 ->
       send_group sym_mcl DRILL_RANGE enc plain rnd None false = Some (c, pkts) ->
       true ∈ (run_acks (new_sender c pkts) acks).1 -> forall w, w < c_wave_count c -> w ∈ acks).
Proof.
  intros H.
  destruct (send_group sym_mcl DRILL_RANGE toy_enc (reps 14063 7) [] None false) as [[c pkts]|] eqn:E;
    [|exfalso; revert E; apply send_some; discriminate].
  assert (HW : match send_group sym_mcl DRILL_RANGE toy_enc (reps 14063 7) [] None false with
     | Some (c, pkts) => c_wave_count c = 2 /\ (run_acks (new_sender c ∅) [0; 0]).1 = [false; true] | None => False end).
  { vm_compute. split; reflexivity. }
  rewrite E in HW. destruct HW as [HW1 HW2].
  assert (Hsame : (run_acks (new_sender c pkts) [0; 0]).1 = (run_acks (new_sender c ∅) [0; 0]).1).
  { apply (acks_ram c); reflexivity. }
  rewrite HW2 in Hsame.
  assert (Hin : 1 ∈ [0; 0]).
  { apply (H toy_enc toy_dec (reps 14063 7) [] c pkts [0; 0]); [apply toy_ok|done| |done| |].
    - rewrite length_reps. vm_compute. discriminate.
    - rewrite Hsame. right. left.
    - rewrite HW1. reflexivity. }
  clear -Hin. set_solver.
Qed.
Print Assumptions C15_duplicate_ack_refuted.

(** A remote-filesystem transfer whose length is a multiple of the wave size: the receiver accepts
    the description and completes, every wave is acknowledged, and the sender never finishes. *)
Theorem C15_never_finishes_refuted :
  ~ (forall enc dec plain rnd revfs c pkts, sym_ok enc dec -> plain <> [] ->
       send_group sym_mcl DRILL_RANGE enc plain rnd (Some revfs) false = Some (c, pkts) ->
       validate c = true ->
       let sts := (run dec (new_receiver c) (arrivals 14 pkts (seq 0 14))).1 in
       (exists w, SComplete w ∈ sts) ->
       true ∈ (run_acks (new_sender c pkts) (omap ack_of sts)).1).
Proof.
  intros H.
  destruct (send_group sym_mcl DRILL_RANGE toy_enc (reps 7032 7) [] (Some id) false) as [[c pkts]|] eqn:E;
    [|exfalso; revert E; apply send_some; discriminate].
  assert (HW : match send_group sym_mcl DRILL_RANGE toy_enc (reps 7032 7) [] (Some id) false with
     | Some (c, pkts) => validate c = true
         /\ (run toy_dec (new_receiver c) (arrivals 14 pkts (seq 0 14))).1 = replicate 13 SInsert ++ [SComplete 0]
         /\ (run_acks (new_sender c pkts) [0]).1 = [false] | None => False end).
  { vm_compute. split_and!; reflexivity. }
  rewrite E in HW. destruct HW as (HW1 & HW2 & HW3).
  specialize (H toy_enc toy_dec (reps 7032 7) [] id c pkts toy_ok ltac:(done) E HW1). cbv zeta in H.
  rewrite HW2 in H. change (omap ack_of (replicate 13 SInsert ++ [SComplete 0])) with [0] in H. rewrite HW3 in H.
  assert (HX : true ∈ [false]); [|clear -HX; set_solver]. apply H. exists 0%nat. apply elem_of_app. right. left.
Qed.
Print Assumptions C15_never_finishes_refuted.

(** ** C50: no packet a peer sends crashes a receiver built from a description that passed validation.
    Missing: descriptions without a partial last wave, or for another port-map width, where it is
    false. *)
Theorem C50_no_crash_partial c dec (l : list (nat * nat * list N)) :
  validate c = true -> c_partial c = 1 -> c_max_packets_per_wave c = DRILL_RANGE ->
  Forall (fun x => (x.1.2 < 14)%nat) l ->
  Forall (fun st => st <> SPanic)
    (run dec (new_receiver c) ((fun x => decoded 14 x.1.1 x.1.2 x.2) <$> l)).1.
Proof.
  intros V%validate_valid Hp HK Hl.
  pose proof (sane_run c dec V Hp l (new_receiver c) (sane_init c V Hp)) as H. rewrite HK in H. by apply H.
Qed.
Print Assumptions C50_no_crash_partial.

Example C50_example :
  match send_group sym_mcl DRILL_RANGE toy_enc (reps 7033 7) [] None false with
  | Some (c, _) => (run (fun _ => None) (new_receiver c)
      [decoded 14 0 13 [1]; decoded 14 1 0 (reps 600 1); decoded 14 9 1 []; decoded 14 0 0 (reps 600 2)]).1
      = [SInsert; SInvalid; SInvalid; SInvalid] | None => False end.
Proof. vm_compute. reflexivity. Qed.

Definition hostile_cfg : cfg := mk_cfg 15 14 7032 504 1 1 0 1 7032 0 1 false.
Theorem C50_crash_refuted :
  ~ (forall c dec w i p, validate c = true -> (i < 14)%nat ->
       let '(s, w', p') := decoded 14 w i p in (on_packet dec (new_receiver c) s w' p').1 <> SPanic).
Proof.
  intros H. specialize (H hostile_cfg (fun _ => None) 0%nat 1%nat [1] ltac:(reflexivity) ltac:(lia)).
  apply H. vm_compute. reflexivity.
Qed.
Print Assumptions C50_crash_refuted.

(** ** C51: a description that passes validation makes the receiver allocate at most 40 MiB *)
Theorem C51_memory c : validate c = true -> receiver_bytes (new_receiver c) <= 4 * 10 * 2 ^ 20.
Proof. intros H. exact (bytes_bound c H). Qed.
Print Assumptions C51_memory.
Example C51_example : validate hostile_cfg = true /\ receiver_bytes (new_receiver hostile_cfg) = 7033.
Proof. vm_compute. split; reflexivity. Qed.

(** ** C52: what is delivered is what was sent. Refuted: a relay that swaps the (unauthenticated)
    coordinates of two waves makes the receiver report success with the waves' contents swapped,
    whatever the cipher. *)
Theorem C52_waves_swapped_refuted mcl K enc dec x y rest rnd c pkts :
  cipher_ok mcl K enc dec true ->
  length x = N.to_nat (wave_plain mcl K) -> length y = N.to_nat (wave_plain mcl K) ->
  N.of_nat (length rest) mod wave_plain mcl K <> 0 ->
  send_group mcl K enc (x ++ y ++ rest) rnd None false = Some (c, pkts) ->
  let l := seq 0 (N.to_nat (c_packets_needed c)) in
  exists r, run dec (new_receiver c) (swapped (N.to_nat K) pkts l)
            = (spec_statuses (N.to_nat K) (dom pkts) ∅ l, r)
    /\ finalize r = y ++ x ++ rest.
Proof. intros OK Hx Hy Hr Hs. exact (relay_run mcl K enc dec x y rest false OK Hx Hy Hr rnd c pkts Hs). Qed.
Print Assumptions C52_waves_swapped_refuted.

Example C52_swap_example :
  match send_group sym_mcl DRILL_RANGE toy_enc (reps 7032 7 ++ reps 7032 8 ++ [9]) [] None false with
  | Some (c, pkts) =>
      let '(sts, r) := run toy_dec (new_receiver c) (swapped 14 pkts (seq 0 29)) in
      last sts = Some (SComplete 2) /\ finalize r = reps 7032 8 ++ reps 7032 7 ++ [9]
  | None => False end.
Proof. vm_compute. split; reflexivity. Qed.

Theorem C52_integrity_refuted :
  ~ (forall enc dec plain rnd c pkts w, sym_ok enc dec -> plain <> [] ->
       send_group sym_mcl DRILL_RANGE enc plain rnd None false = Some (c, pkts) ->
       let '(sts, r) := run dec (new_receiver c) (swapped 14 pkts (seq 0 29)) in
       last sts = Some (SComplete w) -> finalize r = plain).
Proof.
  intros H. pose proof C52_swap_example as HE.
  destruct (send_group sym_mcl DRILL_RANGE toy_enc (reps 7032 7 ++ reps 7032 8 ++ [9]) [] None false)
    as [[c pkts]|] eqn:E; [|exact HE].
  specialize (H toy_enc toy_dec (reps 7032 7 ++ reps 7032 8 ++ [9]) [] c pkts 2%nat toy_ok ltac:(discriminate) E).
  destruct (run toy_dec (new_receiver c) (swapped 14 pkts (seq 0 29))) as [sts r]. destruct HE as [HE1 HE2].
  specialize (H HE1). rewrite HE2 in H. apply (f_equal (hd 0)) in H. vm_compute in H. discriminate H.
Qed.
Print Assumptions C52_integrity_refuted.

(** What does hold: whatever packets arrive, each wave reported is a successful decryption and its
    plaintext is what is stored. *)
Theorem C52_only_decrypted_partial dec r s w p st r' :
  on_packet dec r s w p = (st, r') -> st = SWave w \/ st = SComplete w ->
  exists ct pt, dec ct = Some pt /\ take (length pt) (drop (w * r_M r) (r_slab r')) = pt
    /\ length (r_slab r') = length (r_slab r).
Proof.
  intros Ho Hst. unfold on_packet in Ho.
  destruct (negb _); [injection Ho as <- <-; naive_solver|].
  case_bool_decide; [injection Ho as <- <-; naive_solver|].
  set (r0 := set_seen r _) in *.
  destruct (r_waves r0 !! w) as [ws|]; [|injection Ho as <- <-; naive_solver].
  destruct (insertion_range r0 s _) as [[a b]|]; [|injection Ho as <- <-; naive_solver].
  destruct (negb (check_bounds _ a b)); [injection Ho as <- <-; naive_solver|].
  destruct (_ <? b)%nat; [injection Ho as <- <-; naive_solver|].
  destruct (negb (check_bounds _ 0 _)); [injection Ho as <- <-; naive_solver|].
  destruct (_ =? _)%nat; [|injection Ho as <- <-; naive_solver].
  unfold finish_wave in Ho.
  match type of Ho with context [dec ?ct] => destruct (dec ct) as [pt|] eqn:Ed; [exists ct, pt|injection Ho as <- <-; naive_solver] end.
  split; [done|]. cbn [r0 set_seen r_slab r_M set_waves set_slab r_waves r_written] in Ho.
  destruct (Nat.ltb_spec (length (r_slab r)) (w * r_M r + length pt)); [injection Ho as <- <-; naive_solver|].
  assert (HW : r_slab r' = write_at (w * r_M r) pt (r_slab r)).
  { case_bool_decide; [destruct (_ =? _)%nat|]; injection Ho as <- <-; done. }
  rewrite HW. unfold write_at. split.
  - rewrite drop_app_alt by (rewrite take_length; lia). by rewrite take_app.
  - rewrite !app_length, take_length, drop_length. lia.
Qed.
Print Assumptions C52_only_decrypted_partial.
