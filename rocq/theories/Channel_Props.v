(** Properties of channels (C80, C81, C82, C84). *)
From Coq Require Import ZifyBool ZifyNat ZifyN.
From stdpp Require Import prelude gmap.
From Verif Require Import Ordered_Model Channel_Model Channel_Spec Channel_Proofs.
Local Open Scope N_scope.

(** ** C80: order, and at most once

    Whatever happens — re-keys, failures, dropped calls, file transfers, packets
    overtaking each other — the messages that come out of a channel are the first
    so many of those sent, in that order, each once; and what the reader has got
    is the first so many of those. *)

Theorem C80_prefix : ∀ (perfect p2p : bool) es,
  short es →
  (∃ k, delivered (ends perfect p2p es) = take k (submitted (outs perfect p2p es))) ∧
  (∃ k, read (outs perfect p2p es) = take k (submitted (outs perfect p2p es))) ∧
  (∃ k, read (outs perfect p2p es) = take k (delivered (ends perfect p2p es))).
Proof.
  intros p q es Hs. destruct (delivered_prefix p q es Hs) as [k Hk].
  destruct (read_prefix p q es Hs) as [Hr _].
  split_and!; [by exists k| |by eexists].
  rewrite Hr, Hk, take_take. by eexists.
Qed.

(** Three messages; the first rides on a re-key packet, the second waits in the
    queue, a re-key message is sent in between, and the packets arrive in the
    opposite order. *)
Definition m (t : N) : umsg := Umsg t 0.
Definition three : list ch_event :=
  [ESend (m 1); ETrig TSent; ESend (m 2); ETrig TBack; EFinish; ERekey; ENote;
   EDTake; EDPop; EDTrig TSent; ESend (m 3); ECraft; ETrig TBack; EFinish; EDPop; ECraft; ECraft;
   EDTrig TSent; ECraft; EDPop; EDTake; EDPop; EDTake; EDPop;
   EArrive 3; EArrive 2; EArrive 1; EArrive 0; ERead; ERead; ERead].
Example C80_ex :
  read (outs true true three) = [m 1; m 2; m 3] ∧
  delivered (ends true true (take 27 three)) = [].
Proof. by vm_compute. Qed.
Lemma three_short : short three.
Proof. by vm_compute. Qed.

(** ** C81: nothing is lost

    "Once nothing is under way any more, every message whose [send] returned Ok
    has come out at the other end." *)

Definition C81_statement : Prop := ∀ (perfect p2p : bool) es x,
  short es → quiet (ends perfect p2p es) →
  x ∈ accepted (outs perfect p2p es) → x ∈ delivered (ends perfect p2p es).

(** False.  A file sent to the peer takes a number from the counter of the
    messages, which no packet of the channel will ever carry; the other end waits
    for it. *)
Definition after_file : list ch_event :=
  [ESend (m 1); ETrig TSent; ECraft; EArrive 0; EFile 1; ESend (m 2); ETrig TSent; ECraft; EArrive 0].
Lemma after_file_facts :
  short after_file ∧ quiet (ends false true after_file) ∧
  accepted (outs false true after_file) = [m 1; m 2] ∧ delivered (ends false true after_file) = [m 1].
Proof. split_and!; by vm_compute. Qed.
Theorem C81_refuted : ¬ C81_statement.
Proof.
  intros H. destruct after_file_facts as (H1 & H2 & H3 & H4).
  specialize (H false true after_file (m 2) H1 H2). rewrite H3, H4 in H.
  assert (Hin : m 2 ∈ [m 1; m 2]) by (apply (bool_decide_unpack _); by vm_compute).
  apply H in Hin. apply elem_of_list_singleton in Hin. discriminate.
Qed.

(** It is not a matter of waiting: whatever happens afterwards, no message that
    was sent after the file ever comes out. *)
Theorem C81_file_refuted : ∀ perfect es1 groups es2,
  short (es1 ++ EFile groups :: es2) →
  ∃ k, (k ≤ length (submitted (outs perfect true es1)))%nat ∧
    delivered (ends perfect true (es1 ++ EFile groups :: es2)) =
      take k (submitted (outs perfect true es1)).
Proof.
  intros p es1 groups es2 Hs. pose proof (stall p es1 groups es2 Hs) as Hlen.
  destruct (delivered_prefix p true _ Hs) as [k Hk].
  rewrite outs_app, submitted_app in Hk.
  exists (length (delivered (ends p true (es1 ++ EFile groups :: es2)))). split; [done|].
  set (d := delivered _) in *. clearbody d. rewrite Hk, take_length, app_length in Hlen.
  rewrite Hk at 1. rewrite Hk, take_length, app_length.
  destruct (decide (k ≤ length (submitted (outs p true es1)))%nat) as [Hle|Hgt].
  - rewrite take_app_le by done. f_equal. lia.
  - assert (E : submitted (ch_run (ends p true es1) (EFile groups :: es2)).2 = []).
    { apply nil_length_inv. lia. }
    rewrite E, app_nil_r. rewrite !take_ge; [done|cbn; lia|lia].
Qed.
Example C81_file_ex :
  after_file = [ESend (m 1); ETrig TSent; ECraft; EArrive 0] ++
               EFile 1 :: [ESend (m 2); ETrig TSent; ECraft; EArrive 0].
Proof. done. Qed.

(** The same happens, also towards the server, after a call that returned an
    error: it has used up a number. *)
Definition after_error : list ch_event :=
  [ESend (m 1); ETrig (TErr false); ESend (m 2); ETrig TSent; ECraft; EArrive 0].
Theorem C81_error_refuted :
  short after_error ∧ quiet (ends false false after_error) ∧
  accepted (outs false false after_error) = [m 2] ∧ delivered (ends false false after_error) = [].
Proof. split_and!; by vm_compute. Qed.

(** In Perfect mode a message can be left in the queue: the notifications that
    should have taken it out came before it was put in. *)
Definition late : list ch_event :=
  [ESend (m 1); ETrig TBack; ENote; EDTake; EDPop; EDTake; EDPop; EFinish].
Theorem C81_queue_refuted :
  short late ∧ quiet (ends true false late) ∧
  accepted (outs true false late) = [m 1] ∧ delivered (ends true false late) = [] ∧
  ch_queue (ends true false late) = [(0, m 1)].
Proof. split_and!; by vm_compute. Qed.

(** And the task that empties the queue drops a message when the trigger fails,
    although [send] has returned Ok. *)
Definition dropped : list ch_event :=
  [ESend (m 1); ETrig TBack; EFinish; EDTake; EDPop; EDTrig (TErr false); ESend (m 2); ETrig TSent;
   ECraft; EArrive 0].
Theorem C81_drop_refuted :
  short dropped ∧ quiet (ends true false dropped) ∧
  accepted (outs true false dropped) = [m 1; m 2] ∧ delivered (ends true false dropped) = [].
Proof. split_and!; by vm_compute. Qed.

(** What holds: when no trigger fails, no call is dropped, no file is sent to the
    peer, and (Perfect) a message handed back enters the queue at once, then
    everything sent comes out.  Missing: runs with any of these. *)
Theorem C81_partial : ∀ (perfect p2p : bool) es,
  short es →
  (∀ e, e ∈ es → is_failure e = false) →
  (p2p = true → ∀ e, e ∈ es → is_file e = false) →
  (perfect = true → prompt es) →
  quiet (ends perfect p2p es) →
  delivered (ends perfect p2p es) = submitted (outs perfect p2p es) ∧
  (∀ x, x ∈ accepted (outs perfect p2p es) → x ∈ delivered (ends perfect p2p es)).
Proof.
  intros p q es Hs Hf Hfile Hp Hq.
  assert (E : delivered (ends p q es) = submitted (outs p q es)).
  { apply all_delivered; try done. apply forallb_forall. intros e He.
    apply elem_of_list_In in He. unfold clean. rewrite (Hf e He). destruct q; [|done].
    by rewrite (Hfile eq_refl e He). }
  split; [done|]. intros x Hx. rewrite E. exact (elem_of_submseteq _ _ _ Hx (sublist_submseteq _ _ (accepted_submitted _ None))).
Qed.
Example C81_ex :
  quiet (ends true true three) ∧ prompt three ∧
  forallb (λ e, negb (is_failure e) && negb (is_file e)) three = true ∧
  delivered (ends true true three) = [m 1; m 2; m 3] ∧
  accepted (outs true true three) = [m 1; m 2; m 3].
Proof. split_and!; by vm_compute. Qed.

(** ** C82: the security level asked for *)

Definition C82_statement : Prop := ∀ (perfect p2p : bool) es pk x,
  short es → pk ∈ packets (outs perfect p2p es) → payload (pk_msg pk) = Some x →
  pk_level pk = um_level x.2.

(** False: a message that rides on the first packet of a re-key is protected at
    the level of re-key messages. *)
Definition secret : umsg := Umsg 7 4.
Definition rides : list ch_event := [ESend secret; ETrig TSent; ECraft].
Theorem C82_refuted : ¬ C82_statement.
Proof.
  intros H.
  specialize (H false false rides (Packet 0 0 (RKey (Some (0, secret)))) (0, secret)).
  assert (E : packets (outs false false rides) = [Packet 0 0 (RKey (Some (0, secret)))]) by by vm_compute.
  rewrite E in H.
  assert (Hs : short rides) by by vm_compute.
  specialize (H Hs (proj2 (elem_of_list_singleton _ _) eq_refl) eq_refl). discriminate.
Qed.

Lemma elem_of_packets pk os : pk ∈ packets os → OPacket pk ∈ os.
Proof.
  unfold packets. rewrite elem_of_list_omap. intros (o & Ho & E).
  destruct o; try done. by injection E as ->.
Qed.

(** What holds: a packet of its own has the level asked for, so that this is the
    level of every message as long as none rides on a re-key; every other message
    has the standard level.  Missing: the messages that ride. *)
Theorem C82_partial : ∀ perfect p2p es pk x,
  pk ∈ packets (outs perfect p2p es) → payload (pk_msg pk) = Some x →
  (pk_msg pk = RJust x ∧ pk_level pk = um_level x.2) ∨
  (pk_msg pk = RKey (Some x) ∧ pk_level pk = STANDARD).
Proof.
  intros p q es pk x Hin%elem_of_packets Hx. pose proof (packet_level p q es pk Hin) as Hl.
  destruct (pk_msg pk) as [y|[y|]]; cbn in Hx; [left|right|done]; by injection Hx as ->.
Qed.
Theorem C82_no_riders_partial : ∀ perfect p2p es pk x,
  (∀ e, e ∈ es → e ≠ ETrig TSent ∧ e ≠ EDTrig TSent) →
  pk ∈ packets (outs perfect p2p es) → payload (pk_msg pk) = Some x →
  pk_level pk = um_level x.2.
Proof.
  intros p q es pk x Hes Hin%elem_of_packets Hx. eapply level_without_riders; [|done|done].
  apply forallb_forall. intros e He. apply elem_of_list_In in He.
  destruct (Hes e He) as [H1 H2]. destruct e as [|[]| | | | | | |[]| | | | | | |]; cbn; done.
Qed.
Example C82_ex :
  packets (outs false false [ESend secret; ETrig TBack; EFinish; ECraft]) =
    [Packet 0 4 (RJust (0, secret))].
Proof. by vm_compute. Qed.

(** ** C84: what has arrived can be read *)

Definition C84_statement : Prop := ∀ (perfect p2p : bool) es,
  let n := length (delivered (ends perfect p2p es)) in
  short (es ++ replicate n ERead) →
  read (outs perfect p2p (es ++ replicate n ERead)) = delivered (ends perfect p2p es).

(** False: when the owner of the receiving half drops the sending half of the
    same channel, the receiving half ends, whatever is still unread. *)
Definition half : list ch_event := [ESend (m 1); ETrig TSent; ECraft; EArrive 0; ECloseReceiver].
Theorem C84_refuted : ¬ C84_statement.
Proof.
  intros H. specialize (H false false half).
  assert (E1 : length (delivered (ends false false half)) = 1%nat) by by vm_compute.
  assert (E2 : delivered (ends false false half) = [m 1]) by by vm_compute.
  rewrite E1, E2 in H.
  assert (Hs : short (half ++ replicate 1 ERead)) by by vm_compute.
  specialize (H Hs).
  assert (E3 : read (outs false false (half ++ replicate 1 ERead)) = []) by by vm_compute.
  rewrite E3 in H. done.
Qed.
Example C84_end :
  outs false false (half ++ [ERead]) =
    [OStart (m 1); OOk; OPacket (Packet 0 0 (RKey (Some (0, m 1)))); ONothing; ONothing; OEnd].
Proof. by vm_compute. Qed.

(** What holds: while the receiving end has dropped neither half, everything that
    has come out is read, in order.  Missing: a receiving end that has dropped its
    sending half. *)
Theorem C84_partial : ∀ (perfect p2p : bool) es,
  let n := length (delivered (ends perfect p2p es)) in
  ECloseReceiver ∉ es →
  short (es ++ replicate n ERead) →
  read (outs perfect p2p (es ++ replicate n ERead)) = delivered (ends perfect p2p es).
Proof. intros p q es n Hc Hs. apply read_all; [done|]. by apply rup_open. Qed.
Example C84_ex :
  ECloseReceiver ∉ three ∧ delivered (ends true true (take 28 three)) = [m 1; m 2; m 3] ∧
  read (outs true true (take 28 three ++ replicate 3 ERead)) = [m 1; m 2; m 3].
Proof.
  split_and!; try (by vm_compute). unfold three. rewrite !not_elem_of_cons.
  split_and!; try discriminate. apply not_elem_of_nil.
Qed.

Print Assumptions C80_prefix.
Print Assumptions C81_partial.
Print Assumptions C81_file_refuted.
Print Assumptions C82_partial.
Print Assumptions C84_partial.
