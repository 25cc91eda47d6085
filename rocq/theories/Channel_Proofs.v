(** Proofs about channels. *)
From Coq Require Import ZifyBool ZifyNat ZifyN.
From stdpp Require Import prelude gmap.
From Verif Require Import Ordered_Model Ordered_Spec Ordered_Proofs Channel_Model Channel_Spec.
Local Open Scope N_scope.

Lemma ch_run_app s es1 es2 :
  ch_run s (es1 ++ es2) =
  ((ch_run (ch_run s es1).1 es2).1, (ch_run s es1).2 ++ (ch_run (ch_run s es1).1 es2).2).
Proof.
  revert s. induction es1 as [|e es1 IH]; intros s; cbn.
  - by destruct (ch_run s es2).
  - destruct (ch_step s e) as [s1 o]. rewrite IH.
    destruct (ch_run s1 es1) as [s2 os]. done.
Qed.

Lemma ch_run_cons s e es :
  ch_run s (e :: es) =
  ((ch_run (ch_step s e).1 es).1, (ch_step s e).2 :: (ch_run (ch_step s e).1 es).2).
Proof. cbn. destruct (ch_step s e). by destruct (ch_run _ _). Qed.

Lemma ch_run_snoc s es e :
  ch_run s (es ++ [e]) =
  ((ch_step (ch_run s es).1 e).1, (ch_run s es).2 ++ [(ch_step (ch_run s es).1 e).2]).
Proof. rewrite ch_run_app, ch_run_cons. done. Qed.

Lemma ends_snoc p q es e : ends p q (es ++ [e]) = (ch_step (ends p q es) e).1.
Proof. unfold ends. by rewrite ch_run_snoc. Qed.
Lemma outs_snoc p q es e : outs p q (es ++ [e]) = outs p q es ++ [(ch_step (ends p q es) e).2].
Proof. unfold outs, ends. by rewrite ch_run_snoc. Qed.
Lemma submitted_app a b : submitted (a ++ b) = submitted a ++ submitted b.
Proof. unfold submitted. by rewrite omap_app. Qed.
Lemma packets_app a b : packets (a ++ b) = packets a ++ packets b.
Proof. unfold packets. by rewrite omap_app. Qed.
Lemma outs_app p q es1 es2 :
  outs p q (es1 ++ es2) = outs p q es1 ++ (ch_run (ends p q es1) es2).2.
Proof. unfold outs, ends. by rewrite ch_run_app. Qed.
Lemma ends_app p q es1 es2 :
  ends p q (es1 ++ es2) = (ch_run (ends p q es1) es2).1.
Proof. unfold ends. by rewrite ch_run_app. Qed.

(** ** The ordered channels *)

Lemma run_snoc {T} (ops : list (op T)) i x :
  run (ops ++ [Arrive i x]) = (on_packet_received (run ops) i x).2.
Proof. unfold run. by rewrite fold_left_app. Qed.

Definition arrivals (l : list rmsg) : list (op umsg) :=
  omap (λ r, (λ x : omsg, Arrive x.1 x.2) <$> payload r) l.

Lemma hand_on_run l r : hand_on (run (arrivals l)) r = run (arrivals (l ++ [r])).
Proof.
  unfold hand_on, arrivals. rewrite omap_app. cbn.
  destruct (payload r) as [[i m]|]; cbn.
  - by rewrite run_snoc.
  - by rewrite app_nil_r.
Qed.

Lemma hand_on_all new l : foldl hand_on (run (arrivals l)) new = run (arrivals (l ++ new)).
Proof.
  revert l. induction new as [|r new IH]; intros l; cbn.
  - by rewrite app_nil_r.
  - by rewrite hand_on_run, IH, <-app_assoc.
Qed.

Lemma elem_of_arrivals l i m : Arrive i m ∈ arrivals l ↔ ∃ r, r ∈ l ∧ payload r = Some (i, m).
Proof.
  unfold arrivals. rewrite elem_of_list_omap. split.
  - intros (r & Hr & H). exists r. split; [done|].
    destruct (payload r) as [[i' m']|]; cbn in H; [|done]. by injection H as -> ->.
  - intros (r & Hr & H). exists r. split; [done|]. by rewrite H.
Qed.
Lemma not_gone_arrivals l : ConsumerGone ∉ arrivals l.
Proof.
  unfold arrivals. rewrite elem_of_list_omap. intros (r & _ & H).
  by destruct (payload r) as [[]|].
Qed.

(** ** The basic invariant *)

Definition goodx (ms : list umsg) (x : omsg) : Prop := ms !! N.to_nat x.1 = Some x.2.
Definition goodr (ms : list umsg) (r : rmsg) : Prop := ∀ x, payload r = Some x → goodx ms x.

Definition held_sending (s : chan) : list omsg :=
  match ch_sending s with SNone => [] | STrigger x | SBack x => [x] end.
Definition held_drain (s : chan) : list omsg :=
  match ch_drain s with DTrigger x | DBack x => [x] | _ => [] end.

Record inv (Q : N → rmsg → Prop) (n : N) (ms : list umsg) (s : chan) (gops : list (op rmsg)) : Prop := {
  i_next : ch_next s = N.of_nat (length ms);
  i_ms : N.of_nat (length ms) <= n;
  i_group : ch_group s <= n;
  i_sending : Forall (goodx ms) (held_sending s);
  i_queue : Forall (goodx ms) (ch_queue s);
  i_drain : Forall (goodx ms) (held_drain s);
  i_out : Forall (goodr ms) (ch_out s);
  i_wire : Forall (λ p, pk_group p < ch_group s ∧ goodr ms (pk_msg p) ∧ Q (pk_group p) (pk_msg p)) (ch_wire s);
  i_gops : ∀ g r, Arrive g r ∈ gops → g < ch_group s ∧ goodr ms r ∧ Q g r;
  i_gone : ConsumerGone ∉ gops;
  i_packets : ch_packets s = run gops;
  i_msgs : ch_msgs s = run (arrivals (och_delivered (ch_packets s))) }.

Lemma goodx_app ms ms' x : goodx ms x → goodx (ms ++ ms') x.
Proof. unfold goodx. intros H. by apply lookup_app_l_Some. Qed.
Lemma goodr_app ms ms' r : goodr ms r → goodr (ms ++ ms') r.
Proof. intros H x Hx. by apply goodx_app, H. Qed.

Lemma inv_init Q perfect p2p : inv Q 0 [] (chan0 perfect p2p) [].
Proof.
  split; cbn; try done; try lia; try by constructor.
  - intros g r H. by apply elem_of_nil in H.
  - apply not_elem_of_nil.
Qed.

Lemma Forall_delete {A} (P : A → Prop) i l : Forall P l → Forall P (delete i l).
Proof.
  intros H. apply Forall_forall. intros x Hx.
  eapply Forall_forall; [exact H|]. apply elem_of_list_lookup in Hx as [j Hj].
  destruct (decide (j < i)%nat) as [Hji|Hji].
  - rewrite lookup_delete_lt in Hj by lia. by eapply elem_of_list_lookup_2.
  - rewrite lookup_delete_ge in Hj by lia. by eapply elem_of_list_lookup_2.
Qed.

Ltac pick :=
  match goal with
  | H : inv _ _ _ _ _ |- _ => destruct H as [Hnext Hms Hgr Hse Hqu Hdr Hou Hwi Hgo Hgn Hpa Hmg]
  end.

Section step.
  Context (Q : N → rmsg → Prop).

  (** Only what a step can do to the held messages, the counters and the wire
      matters; the receiving side changes with [EArrive] alone. *)
  Lemma inv_step n ms s gops e :
    n < 2 ^ 64 - 2 →
    (∀ r, goodr ms r → Q (ch_group s) r) →
    inv Q n ms s gops →
    ∃ gops', inv Q (n + 1) (ms ++ submitted [(ch_step s e).2]) (ch_step s e).1 gops'.
  Proof using.
    intros Hn HQ HI.
    assert (Hlen : ∀ m, length (ms ++ [m]) = S (length ms)).
    { intros m. rewrite app_length. cbn. lia. }
    destruct e; cbn [ch_step].
    - (* ESend *)
      destruct (ch_sending s) eqn:Es; [destruct (ch_up s)|..].
      + exists gops. pick. cbn [snd fst submitted omap list_omap].
        unfold held_sending in Hse. rewrite Es in Hse.
        split; cbn; rewrite ?Hlen; try lia.
        * constructor; [|constructor]. unfold goodx. cbn. rewrite Hnext, Nat2N.id.
          by apply list_lookup_middle.
        * eapply Forall_impl; [exact Hqu|]. intros ??. by apply goodx_app.
        * eapply Forall_impl; [exact Hdr|]. intros ??. by apply goodx_app.
        * eapply Forall_impl; [exact Hou|]. intros ??. by apply goodr_app.
        * eapply Forall_impl; [exact Hwi|]. intros ? (?&?&?). split_and!; [done|by apply goodr_app|done].
        * intros g r Hg. destruct (Hgo g r Hg) as (?&?&?). split_and!; [done|by apply goodr_app|done].
        * done.
        * done.
        * done.
      + exists gops. cbn. rewrite app_nil_r. pick. split; try done; lia.
      + exists gops. cbn. rewrite app_nil_r. pick. split; try done; lia.
      + exists gops. cbn. rewrite app_nil_r. pick. split; try done; lia.
    - (* ETrig *)
      destruct (ch_sending s) as [|x|x] eqn:Es; [| destruct t |];
        exists gops; cbn; rewrite app_nil_r; pick;
        unfold held_sending in Hse; rewrite Es in Hse;
        split; cbn; unfold held_sending; cbn; rewrite ?Es; try done; try lia; try constructor.
      apply Forall_app. split; [done|]. constructor; [|done]. intros y [= <-].
      by inversion Hse.
    - (* EFinish *)
      destruct (ch_sending s) as [|x|x] eqn:Es; [| |destruct (ch_perfect s)];
        exists gops; cbn; rewrite app_nil_r; pick;
        unfold held_sending in Hse; rewrite Es in Hse;
        split; cbn; unfold held_sending; cbn; rewrite ?Es; try done; try lia; try constructor.
      + by apply Forall_app.
      + apply Forall_app. split; [done|]. constructor; [|done]. intros y [= <-].
        by inversion Hse.
    - (* ECancel *)
      exists gops; cbn; rewrite app_nil_r; pick; split; cbn; try done; try lia; constructor.
    - exists gops; cbn; rewrite app_nil_r; pick; split; cbn; try done; lia.
    - exists gops; cbn; rewrite app_nil_r; pick; split; cbn; try done; try lia.
      apply Forall_app. split; [done|]. by constructor.
    - (* EDTake *)
      destruct (ch_drain s) eqn:Ed, (ch_notes s) eqn:En;
        exists gops; cbn; rewrite app_nil_r; pick; split; cbn; try done; try lia.
    - (* EDPop *)
      destruct (ch_drain s) eqn:Ed; [|destruct (ch_queue s) as [|x q] eqn:Eq|..];
        exists gops; cbn; rewrite app_nil_r; pick; rewrite ?Eq in Hqu;
        split; cbn; rewrite ?Eq; try done; try lia; try constructor;
        try by inversion Hqu.
    - (* EDTrig *)
      destruct (ch_drain s) as [| |x|x] eqn:Ed; [| |destruct t|];
        exists gops; cbn; rewrite app_nil_r; pick;
        unfold held_drain in Hdr; rewrite Ed in Hdr;
        split; cbn; unfold held_drain; cbn; rewrite ?Ed; try done; try lia; try constructor.
      apply Forall_app. split; [done|]. constructor; [|done]. intros y [= <-].
      by inversion Hdr.
    - (* EDPush *)
      destruct (ch_drain s) as [| |x|x] eqn:Ed;
        exists gops; cbn; rewrite app_nil_r; pick;
        unfold held_drain in Hdr; rewrite Ed in Hdr;
        split; cbn; unfold held_drain; cbn; rewrite ?Ed; try done; try lia; try constructor;
        try by inversion Hdr.
    - (* ECraft *)
      destruct (ch_out s) as [|r rest] eqn:Eo;
        exists gops; cbn; rewrite app_nil_r; pick; rewrite ?Eo in Hou;
        split; cbn; rewrite ?Eo; try done; try lia; try by inversion Hou.
      + apply Forall_app. split.
        * eapply Forall_impl; [exact Hwi|]. intros p (?&?&?). split_and!; [lia|done..].
        * constructor; [|constructor]. cbn. inversion Hou; subst.
          split_and!; [lia|done|by apply HQ].
      + intros g r' Hg. destruct (Hgo g r' Hg) as (?&?&?). split_and!; [lia|done..].
    - (* EFile *)
      destruct (ch_p2p s); exists gops; cbn; rewrite app_nil_r; pick; split; cbn; try done; try lia.
      + eapply Forall_impl; [exact Hwi|]. intros p (?&?&?). split_and!; [lia|done..].
      + intros g r' Hg. destruct (Hgo g r' Hg) as (?&?&?). split_and!; [lia|done..].
    - (* EArrive *)
      destruct (ch_wire s !! i) as [p|] eqn:Ew.
      + exists (gops ++ [Arrive (pk_group p) (pk_msg p)]). cbn. rewrite app_nil_r. pick.
        assert (Hp : pk_group p < ch_group s ∧ goodr ms (pk_msg p) ∧ Q (pk_group p) (pk_msg p)).
        { eapply Forall_forall in Hwi; [exact Hwi|]. by eapply elem_of_list_lookup_2. }
        assert (Hgo' : ∀ g r, Arrive g r ∈ gops ++ [Arrive (pk_group p) (pk_msg p)] →
                  g < ch_group s ∧ goodr ms r ∧ Q g r).
        { intros g r [Hg|Hg]%elem_of_app; [by apply Hgo|].
          apply elem_of_list_singleton in Hg. injection Hg as -> ->. done. }
        assert (Hrange : ids_in_range (gops ++ [Arrive (pk_group p) (pk_msg p)])).
        { intros g r Hg. destruct (Hgo' g r Hg) as (?&_). lia. }
        assert (Hafter : (on_packet_received (ch_packets s) (pk_group p) (pk_msg p)).2
                         = run (gops ++ [Arrive (pk_group p) (pk_msg p)])).
        { by rewrite run_snoc, Hpa. }
        destruct (delivered_monotone gops (Arrive (pk_group p) (pk_msg p)) Hrange) as [new Hnew].
        split; cbn; try done; try lia.
        * by apply Forall_delete.
        * rewrite not_elem_of_app. split; [done|].
          intros H%elem_of_list_singleton. discriminate.
        * rewrite Hafter, Hnew, Hmg, Hpa, drop_app, hand_on_all. done.
      + exists gops; cbn; rewrite app_nil_r; pick; split; try done; lia.
    - (* ERead *)
      destruct (ch_rup s); [destruct (_ !! _)|];
        exists gops; cbn; rewrite app_nil_r; pick; split; try done; cbn; try done; lia.
    - exists gops; cbn; rewrite app_nil_r; pick; split; cbn; try done; lia.
    - exists gops; cbn; rewrite app_nil_r; pick; split; cbn; try done; lia.
  Qed.
End step.

Lemma group_mono s e : ch_group s <= ch_group (ch_step s e).1.
Proof.
  destruct e; cbn; repeat case_match; cbn; try lia.
Qed.

Lemma inv_steps (Q : N → rmsg → Prop) es n ms s gops :
  n + N.of_nat (length es) < 2 ^ 64 - 1 →
  (∀ g r, ch_group s <= g → Q g r) →
  inv Q n ms s gops →
  ∃ gops', inv Q (n + N.of_nat (length es)) (ms ++ submitted (ch_run s es).2) (ch_run s es).1 gops'.
Proof.
  revert n ms s gops. induction es as [|e es IH]; intros n ms s gops Hn HQ HI.
  - exists gops. cbn. rewrite app_nil_r, N.add_0_r. done.
  - cbn [length] in Hn. rewrite ch_run_cons. cbn [fst snd].
    destruct (inv_step Q n ms s gops e) as [g1 H1]; [lia|intros; apply HQ; lia|done|].
    destruct (IH (n + 1) (ms ++ submitted [(ch_step s e).2]) (ch_step s e).1 g1) as [g2 H2]; [lia| |exact H1|].
    { intros g r Hg. apply HQ. pose proof (group_mono s e). lia. }
    exists g2.
    replace (n + N.of_nat (length (e :: es))) with (n + 1 + N.of_nat (length es)) by (cbn [length]; lia).
    change ((ch_step s e).2 :: (ch_run (ch_step s e).1 es).2)
      with ([(ch_step s e).2] ++ (ch_run (ch_step s e).1 es).2).
    rewrite submitted_app, app_assoc. done.
Qed.

Lemma inv_run p q es :
  short es →
  ∃ gops, inv (λ _ _, True) (N.of_nat (length es)) (submitted (outs p q es)) (ends p q es) gops.
Proof.
  intros Hs. destruct (inv_steps (λ _ _, True) es 0 [] (chan0 p q) []) as [gops H].
  - done.
  - done.
  - apply inv_init.
  - exists gops. done.
Qed.

Lemma short_app es1 es2 : short (es1 ++ es2) → short es1.
Proof. unfold short. rewrite app_length. lia. Qed.
Lemma short_snoc es e : short (es ++ [e]) → short es ∧ N.of_nat (length es) < 2 ^ 64 - 2.
Proof. unfold short. rewrite app_length. change (length [e]) with 1%nat. lia. Qed.

(** ** Order *)

Lemma delivered_packets (Q : N → rmsg → Prop) n ms s gops :
  n < 2 ^ 64 - 1 → inv Q n ms s gops →
  ids_in_range gops ∧
  (∀ k r, och_delivered (ch_packets s) !! k = Some r →
     Arrive (N.of_nat k) r ∈ gops ∧ goodr ms r ∧ Q (N.of_nat k) r) ∧
  ids_in_range (arrivals (och_delivered (ch_packets s))) ∧
  copies_of ms (arrivals (och_delivered (ch_packets s))).
Proof.
  intros Hn HI. pick.
  assert (Hr : ids_in_range gops).
  { intros g r Hg. destruct (Hgo g r Hg) as (?&_). lia. }
  assert (Hd : ∀ k r, och_delivered (ch_packets s) !! k = Some r →
     Arrive (N.of_nat k) r ∈ gops ∧ goodr ms r ∧ Q (N.of_nat k) r).
  { intros k r Hk. rewrite Hpa in Hk. apply (delivered_in_order gops Hr) in Hk.
    split; [done|]. by destruct (Hgo _ _ Hk) as (_&?&?). }
  assert (Hc : ∀ i m, Arrive i m ∈ arrivals (och_delivered (ch_packets s)) → ms !! N.to_nat i = Some m).
  { intros i m (r & Hr' & Hp)%elem_of_arrivals. apply elem_of_list_lookup in Hr' as [k Hk].
    destruct (Hd _ _ Hk) as (_ & Hg & _). exact (Hg _ Hp). }
  split_and!; [done|done| |].
  - intros i m H. apply Hc in H. apply lookup_lt_Some in H. lia.
  - intros i m H. by apply Hc.
Qed.

Lemma delivered_prefix p q es :
  short es → ∃ k, delivered (ends p q es) = take k (submitted (outs p q es)).
Proof.
  intros Hs. destruct (inv_run p q es Hs) as [gops HI].
  destruct (delivered_packets _ _ _ _ _ Hs HI) as (_ & _ & Hr & Hc).
  unfold delivered. rewrite (i_msgs _ _ _ _ _ HI). by apply copies_prefix.
Qed.

(** ** Reading *)

Lemma foldl_hand_on_prefix s p : ∀ (Q : N → rmsg → Prop) n ms gops e,
  n < 2 ^ 64 - 2 → (∀ r, goodr ms r → Q (ch_group s) r) → inv Q n ms s gops →
  e = EArrive p →
  ∃ l, delivered (ch_step s e).1 = delivered s ++ l.
Proof.
  intros Q n ms gops e Hn HQ HI ->.
  destruct (inv_step Q n ms s gops (EArrive p) Hn HQ HI) as [gops' HI'].
  assert (Hn' : n + 1 < 2 ^ 64 - 1) by lia.
  destruct (delivered_packets _ _ _ _ _ Hn' HI') as (_ & _ & Hr & Hc).
  cbn [ch_step] in *. destruct (ch_wire s !! p) as [pk|] eqn:Ew; [|exists []; by rewrite app_nil_r].
  cbn [fst snd] in *.
  unfold delivered. rewrite (i_msgs _ _ _ _ _ HI'), (i_msgs _ _ _ _ _ HI).
  assert (∃ new, och_delivered (ch_packets (arrive (with_wire (delete p (ch_wire s)) s) pk))
                 = och_delivered (ch_packets s) ++ new) as [new Hnew].
  { cbn. destruct HI as [_ _ Hgr _ _ _ _ Hwi Hgo _ Hpa _].
    assert (Hin : pk_group pk < ch_group s).
    { eapply Forall_forall in Hwi; [apply Hwi|]. by eapply elem_of_list_lookup_2. }
    rewrite Hpa, <-run_snoc. apply delivered_monotone.
    intros g r [Hg|Hg]%elem_of_app.
    - destruct (Hgo _ _ Hg). lia.
    - apply elem_of_list_singleton in Hg. injection Hg as -> ->. lia. }
  rewrite Hnew in *. unfold arrivals in *. rewrite omap_app in *.
  clear -Hr. set (a := omap _ (och_delivered _)) in *. set (b := omap _ new) in *. clearbody a b.
  revert Hr. induction b as [|o b IH] using rev_ind; intros Hr.
  - exists []. by rewrite !app_nil_r.
  - rewrite app_assoc in *. destruct IH as [l Hl].
    { by apply ids_in_range_app in Hr as [? _]. }
    destruct (delivered_monotone _ _ Hr) as [l' Hl']. exists (l ++ l').
    by rewrite Hl', Hl, app_assoc.
Qed.

Lemma delivered_step (Q : N → rmsg → Prop) n ms s gops e :
  n < 2 ^ 64 - 2 → (∀ r, goodr ms r → Q (ch_group s) r) → inv Q n ms s gops →
  ∃ l, delivered (ch_step s e).1 = delivered s ++ l.
Proof.
  intros Hn HQ HI.
  destruct e; try (by eapply foldl_hand_on_prefix);
    exists []; rewrite app_nil_r; cbn; unfold delivered; repeat case_match; done.
Qed.

Lemma read_snoc os o : read (os ++ [o]) = read os ++ read [o].
Proof. unfold read. by rewrite omap_app. Qed.

Lemma read_step s e :
  ch_read (ch_step s e).1 = (ch_read s + length (read [(ch_step s e).2]))%nat ∧
  (∀ m, (ch_step s e).2 = ORead m → e = ERead ∧ delivered s !! ch_read s = Some m).
Proof.
  destruct e; cbn [ch_step];
    try (repeat match goal with |- context [match ?x with _ => _ end] => destruct x end;
         cbn; split; try done; lia).
  destruct (ch_rup s); [|by split; cbn; [lia|]].
  unfold delivered. destruct (och_delivered (ch_msgs s) !! ch_read s) as [u|] eqn:E; cbn; (split; [lia|]).
  - by intros m [= ->].
  - done.
Qed.

Lemma read_prefix p q es :
  short es →
  read (outs p q es) = take (ch_read (ends p q es)) (delivered (ends p q es)) ∧
  (ch_read (ends p q es) ≤ length (delivered (ends p q es)))%nat.
Proof.
  induction es as [|e es IH] using rev_ind; intros Hs.
  - done.
  - destruct (short_snoc es e Hs) as [Hs' Hn].
    destruct (IH Hs') as [IH1 IH2].
    destruct (inv_run p q es Hs') as [gops HI].
    destruct (delivered_step (λ _ _, True) _ _ _ _ e Hn (λ _ _, I) HI) as [l Hl].
    rewrite outs_snoc, ends_snoc, read_snoc.
    destruct (read_step (ends p q es) e) as [Hr1 Hr2].
    rewrite Hr1, Hl, IH1.
    set (s := ends p q es) in *. clearbody s.
    destruct (ch_step s e).2 as [| | | | |m|] eqn:Eo; cbn [read omap list_omap length app];
      try (rewrite app_nil_r, Nat.add_0_r; split;
           [by rewrite take_app_le by done | rewrite app_length; lia]).
    destruct (Hr2 m eq_refl) as [-> Hm].
    cbn [read omap list_omap length].
    pose proof (lookup_lt_Some _ _ _ Hm).
    split.
    + rewrite Nat.add_1_r, take_app_le by lia. symmetry. by apply take_S_r.
    + rewrite app_length. lia.
Qed.

Lemma reads_more p q es n :
  short (es ++ replicate n ERead) → ch_rup (ends p q es) = true →
  delivered (ends p q (es ++ replicate n ERead)) = delivered (ends p q es) ∧
  ch_rup (ends p q (es ++ replicate n ERead)) = true ∧
  ch_read (ends p q (es ++ replicate n ERead)) =
    Nat.min (ch_read (ends p q es) + n) (length (delivered (ends p q es))).
Proof.
  intros Hs Hup. pose proof (short_app _ _ Hs) as Hs0.
  destruct (read_prefix p q es Hs0) as [_ Hle].
  rewrite ends_app. set (s := ends p q es) in *. clearbody s. clear Hs Hs0.
  revert s Hup Hle. induction n as [|n IH]; intros s Hup Hle.
  - cbn. split_and!; try done. lia.
  - cbn [replicate]. rewrite ch_run_cons. cbn [fst].
    assert (H1 : delivered (ch_step s ERead).1 = delivered s ∧ ch_rup (ch_step s ERead).1 = true ∧
                 ch_read (ch_step s ERead).1 = Nat.min (ch_read s + 1) (length (delivered s))).
    { cbn. rewrite Hup. destruct (och_delivered (ch_msgs s) !! ch_read s) eqn:E; cbn.
      - split_and!; try done. apply lookup_lt_Some in E. unfold delivered. lia.
      - split_and!; try done. apply lookup_ge_None in E. unfold delivered in *. lia. }
    destruct H1 as (H1 & H2 & H3).
    destruct (IH (ch_step s ERead).1 H2) as (H4 & H5 & H6). { rewrite H1, H3. lia. }
    rewrite H4, H5, H6, H1, H3. split_and!; try done. lia.
Qed.

Lemma read_all p q es :
  short (es ++ replicate (length (delivered (ends p q es))) ERead) →
  ch_rup (ends p q es) = true →
  read (outs p q (es ++ replicate (length (delivered (ends p q es))) ERead)) = delivered (ends p q es).
Proof.
  intros Hs Hup. destruct (reads_more p q es _ Hs Hup) as (H1 & _ & H2).
  destruct (read_prefix p q _ Hs) as [H3 _]. rewrite H3, H1, H2. apply take_ge. lia.
Qed.

Lemma rup_open p q es : ECloseReceiver ∉ es → ch_rup (ends p q es) = true.
Proof.
  induction es as [|e es IH] using rev_ind; intros H; [done|].
  rewrite not_elem_of_app in H. destruct H as [H He]. rewrite ends_snoc.
  specialize (IH H). set (s := ends p q es) in *. clearbody s.
  destruct e; cbn; repeat case_match; cbn; try done.
  by rewrite elem_of_list_singleton in He.
Qed.

(** ** The number taken by a file transfer *)

Definition before (G n1 : N) (g : N) (r : rmsg) : Prop :=
  g ≠ G ∧ (g < G → ∀ x, payload r = Some x → x.1 < n1).

Lemma stall p es1 groups es2 :
  short (es1 ++ EFile groups :: es2) →
  (length (delivered (ends p true (es1 ++ EFile groups :: es2)))
    ≤ length (submitted (outs p true es1)))%nat.
Proof.
  intros Hs.
  destruct (inv_run p true es1 (short_app _ _ Hs)) as [g0 H0].
  rewrite ends_app, ch_run_cons. cbn [fst].
  set (s := ends p true es1) in *. set (ms := submitted (outs p true es1)) in *.
  assert (Hp : ch_p2p s = true).
  { subst s. clear. induction es1 as [|e es IH] using rev_ind; [done|].
    rewrite ends_snoc. set (s := ends p true es) in *. clearbody s.
    destruct e; cbn; repeat case_match; cbn; done. }
  clearbody s ms.
  assert (H1 : inv (before (ch_group s) (N.of_nat (length ms))) (N.of_nat (length es1) + 1)
                 ms (ch_step s (EFile groups)).1 g0).
  { destruct H0 as [Hnext Hms Hgr Hse Hqu Hdr Hou Hwi Hgo Hgn Hpa Hmg].
    assert (Hb : ∀ g r, g < ch_group s → goodr ms r → before (ch_group s) (N.of_nat (length ms)) g r).
    { intros g r Hg Hr. split; [lia|]. intros _ x Hx. apply Hr, lookup_lt_Some in Hx. lia. }
    cbn [ch_step]. rewrite Hp.
    split; cbn; try done; try lia.
    - eapply Forall_impl; [exact Hwi|]. cbn. intros pk (?&?&_). split_and!; [lia|done|by apply Hb].
    - intros g r Hg. destruct (Hgo g r Hg) as (?&?&_). split_and!; [lia|done|by apply Hb]. }
  assert (Hlen : N.of_nat (length es1) + 1 + N.of_nat (length es2) < 2 ^ 64 - 1).
  { unfold short in Hs. rewrite app_length in Hs.
    change (length (EFile groups :: es2)) with (S (length es2)) in Hs. lia. }
  destruct (inv_steps (before (ch_group s) (N.of_nat (length ms))) es2 _ ms
    (ch_step s (EFile groups)).1 g0 Hlen) as [g2 H2]; [|done|].
  { intros g r Hg. cbn [ch_step] in Hg. rewrite Hp in Hg. cbn in Hg. split; lia. }
  set (s2 := (ch_run _ es2).1) in *. set (ms2 := ms ++ _) in *.
  set (G := ch_group s) in *. clearbody s2 ms2 G. clear H0 H1 Hp.
  destruct (delivered_packets _ _ _ _ _ Hlen H2) as (Hr2 & Hd & Hr & Hc).
  unfold delivered. rewrite (i_msgs _ _ _ _ _ H2).
  set (mops := arrivals (och_delivered (ch_packets s2))) in *.
  destruct (decide (length (och_delivered (run mops)) ≤ length ms)%nat) as [|Hgt]; [done|].
  destruct (och_delivered (run mops) !! length ms) as [m|] eqn:Em.
  2: { apply lookup_ge_None in Em. lia. }
  apply (delivered_in_order mops Hr) in Em.
  apply elem_of_arrivals in Em as (r & Hin & Hpay).
  apply elem_of_list_lookup in Hin as [k Hk].
  destruct (Hd _ _ Hk) as (_ & _ & _ & Hlt).
  destruct (decide (N.of_nat k < G)) as [HkG|HkG].
  - specialize (Hlt HkG _ Hpay). cbn in Hlt. lia.
  - destruct (och_delivered (ch_packets s2) !! N.to_nat G) as [r'|] eqn:Eg.
    + destruct (Hd _ _ Eg) as (_ & _ & Hne & _). by rewrite N2Nat.id in Hne.
    + apply lookup_ge_None in Eg. apply lookup_lt_Some in Hk. lia.
Qed.

(** ** Nothing is lost when nothing goes wrong *)

Definition held (s : chan) : list omsg :=
  held_sending s ++ ch_queue s ++ held_drain s ++ omap payload (ch_out s).

Record cinv (ms : list umsg) (s : chan) (gops : list (op rmsg)) (crafted : list rmsg) : Prop := {
  c_next : ch_next s = N.of_nat (length ms);
  c_len : ch_group s = N.of_nat (length crafted);
  c_ops : copies_of crafted gops;
  c_gone : ConsumerGone ∉ gops;
  c_wire : Forall (λ p, crafted !! N.to_nat (pk_group p) = Some (pk_msg p)) (ch_wire s);
  c_all : ∀ g r, crafted !! N.to_nat g = Some r →
            Arrive g r ∈ gops ∨ ∃ p, p ∈ ch_wire s ∧ pk_group p = g;
  c_cov : ∀ i m, ms !! i = Some m →
            (N.of_nat i, m) ∈ held s ∨ ∃ r, r ∈ crafted ∧ payload r = Some (N.of_nat i, m);
  c_packets : ch_packets s = run gops }.

Definition clean (p2p : bool) (e : ch_event) : bool := negb (is_failure e) && negb (p2p && is_file e).

Lemma elem_of_delete {A} (l : list A) i x : x ∈ l → x ∈ delete i l ∨ l !! i = Some x.
Proof.
  intros [j Hj]%elem_of_list_lookup. destruct (decide (j = i)) as [->|Hne]; [by right|left].
  destruct (decide (j < i)%nat).
  - apply (elem_of_list_lookup_2 _ j). by rewrite lookup_delete_lt by lia.
  - apply (elem_of_list_lookup_2 _ (pred j)). rewrite lookup_delete_ge by lia.
    by replace (S (pred j)) with j by lia.
Qed.

(** A step that only moves held messages about. *)
Lemma cinv_same ms s s' gops crafted :
  cinv ms s gops crafted →
  ch_next s' = ch_next s → ch_group s' = ch_group s → ch_wire s' = ch_wire s →
  ch_packets s' = ch_packets s → (∀ x, x ∈ held s → x ∈ held s') →
  cinv ms s' gops crafted.
Proof.
  intros [H1 H2 H3 H4 H5 H6 H7 H8] E1 E2 E3 E4 E5.
  split; rewrite ?E1, ?E2, ?E3, ?E4; try done.
  intros i m Hm. destruct (H7 i m Hm) as [H|H]; [left; by apply E5|by right].
Qed.

Lemma cinv_step ms s gops crafted e :
  clean (ch_p2p s) e = true →
  cinv ms s gops crafted →
  ∃ gops' crafted', cinv (ms ++ submitted [(ch_step s e).2]) (ch_step s e).1 gops' crafted'.
Proof.
  intros Hc HI.
  destruct e as [m|t| | | | | | |t| | |groups|i| | |]; cbn [ch_step].
  - (* ESend *)
    destruct (ch_sending s) eqn:Es; [destruct (ch_up s)|..];
      exists gops, crafted; cbn [snd submitted omap list_omap]; rewrite ?app_nil_r; try done.
    destruct HI as [H1 H2 H3 H4 H5 H6 H7 H8]. split; cbn; try done.
    + rewrite app_length. cbn. lia.
    + intros i m' [Hm|[Hi Hm]]%lookup_app_Some.
      * destruct (H7 i m' Hm) as [H|H]; [left|by right].
        unfold held, held_sending in *. rewrite Es in H. cbn in *. by right.
      * left. destruct (i - length ms)%nat as [|?] eqn:Ei; [|done]. injection Hm as ->.
        unfold held. cbn. replace i with (length ms) by lia. rewrite H1. by left.
  - (* ETrig *)
    destruct (ch_sending s) as [|x|x] eqn:Es; [|destruct t; [..|done]|];
      exists gops, crafted; cbn; rewrite app_nil_r; try done;
      eapply cinv_same; try done; intros y; unfold held, held_sending; rewrite Es; cbn;
      rewrite ?omap_app, ?elem_of_cons, ?elem_of_app; cbn; rewrite ?elem_of_list_singleton; tauto.
  - (* EFinish *)
    destruct (ch_sending s) as [|x|x] eqn:Es; [| |destruct (ch_perfect s)];
      exists gops, crafted; cbn; rewrite app_nil_r; try done;
      eapply cinv_same; try done; intros y; unfold held, held_sending; rewrite Es; cbn;
      rewrite ?omap_app, ?elem_of_cons, ?elem_of_app; cbn; rewrite ?elem_of_list_singleton; tauto.
  - done.
  - exists gops, crafted; cbn; rewrite app_nil_r. by eapply cinv_same.
  - exists gops, crafted; cbn; rewrite app_nil_r. eapply cinv_same; try done.
    intros y. unfold held. cbn. rewrite omap_app. cbn. by rewrite app_nil_r.
  - (* EDTake *)
    destruct (ch_drain s) eqn:Ed, (ch_notes s) eqn:En;
      exists gops, crafted; cbn; rewrite app_nil_r; try done.
    eapply cinv_same; try done. intros y. unfold held, held_drain. by rewrite Ed.
  - (* EDPop *)
    destruct (ch_drain s) eqn:Ed; [|destruct (ch_queue s) as [|x q] eqn:Eq|..];
      exists gops, crafted; cbn; rewrite app_nil_r; try done;
      eapply cinv_same; try done; intros y; unfold held, held_drain; rewrite Ed; cbn;
      rewrite ?Eq; cbn; rewrite ?elem_of_app, ?elem_of_cons, ?elem_of_app; tauto.
  - (* EDTrig *)
    destruct (ch_drain s) as [| |x|x] eqn:Ed; [| |destruct t; [..|done]|];
      exists gops, crafted; cbn; rewrite app_nil_r; try done;
      eapply cinv_same; try done; intros y; unfold held, held_drain; rewrite Ed; cbn;
      rewrite ?omap_app, ?elem_of_app, ?elem_of_cons, ?elem_of_app; cbn;
      rewrite ?elem_of_list_singleton; tauto.
  - (* EDPush *)
    destruct (ch_drain s) as [| |x|x] eqn:Ed;
      exists gops, crafted; cbn; rewrite app_nil_r; try done.
    eapply cinv_same; try done; intros y; unfold held, held_drain; rewrite Ed; cbn.
    rewrite ?omap_app, ?elem_of_app, ?elem_of_cons, ?elem_of_app. tauto.
  - (* ECraft *)
    destruct (ch_out s) as [|r rest] eqn:Eo;
      [exists gops, crafted; cbn; rewrite app_nil_r; done|].
    exists gops, (crafted ++ [r]). cbn. rewrite app_nil_r.
    destruct HI as [H1 H2 H3 H4 H5 H6 H7 H8]. split; cbn; try done.
    + rewrite app_length. cbn. lia.
    + intros i q Hi. apply lookup_app_l_Some. by apply H3.
    + apply Forall_app. split.
      * eapply Forall_impl; [exact H5|]. intros pk Hpk. by apply lookup_app_l_Some.
      * constructor; [|constructor]. cbn. rewrite H2, Nat2N.id. by apply list_lookup_middle.
    + intros g r' [Hg|[Hg Hr]]%lookup_app_Some.
      * destruct (H6 g r' Hg) as [H|(pk & Hpk & E)]; [by left|right].
        exists pk. rewrite elem_of_app. auto.
      * destruct (N.to_nat g - length crafted)%nat as [|?] eqn:Eg; [|done].
        right. exists (Packet (ch_group s) (craft_level r) r). rewrite elem_of_app, elem_of_list_singleton.
        split; [by right|]. cbn. lia.
    + intros i m Hm. destruct (H7 i m Hm) as [H|(r' & Hr' & E)].
      * unfold held in H |- *. rewrite Eo in H. cbn in H |- *.
        rewrite !elem_of_app in H. destruct H as [H|[H|[H|H]]].
        1-3: left; unfold held_sending, held_drain in *; cbn; rewrite !elem_of_app; tauto.
        destruct (payload r) as [x|] eqn:Ep.
        -- apply elem_of_cons in H as [->|H].
           ++ right. exists r. rewrite elem_of_app, elem_of_list_singleton. auto.
           ++ left. rewrite !elem_of_app. tauto.
        -- left. rewrite !elem_of_app. tauto.
      * right. exists r'. rewrite elem_of_app. auto.
  - (* EFile *)
    exists gops, crafted. cbn. unfold clean in Hc. cbn in Hc.
    destruct (ch_p2p s); [done|]. cbn. rewrite app_nil_r. by eapply cinv_same.
  - (* EArrive *)
    destruct (ch_wire s !! i) as [p|] eqn:Ew;
      [|exists gops, crafted; cbn; rewrite app_nil_r; done].
    exists (gops ++ [Arrive (pk_group p) (pk_msg p)]), crafted. cbn. rewrite app_nil_r.
    destruct HI as [H1 H2 H3 H4 H5 H6 H7 H8].
    assert (Hp : crafted !! N.to_nat (pk_group p) = Some (pk_msg p)).
    { eapply Forall_forall in H5; [exact H5|]. by eapply elem_of_list_lookup_2. }
    split; cbn; try done.
    + intros g r [Hg|Hg]%elem_of_app; [by apply H3|].
      apply elem_of_list_singleton in Hg. injection Hg as -> ->. done.
    + rewrite not_elem_of_app. split; [done|]. intros H%elem_of_list_singleton. discriminate.
    + by apply Forall_delete.
    + intros g r Hg. destruct (H6 g r Hg) as [H|(pk & Hpk & E)].
      * left. rewrite elem_of_app. by left.
      * destruct (elem_of_delete _ i _ Hpk) as [H|H]; [right; by exists pk|left].
        rewrite Ew in H. injection H as ->. rewrite elem_of_app, elem_of_list_singleton. right.
        rewrite E in *. rewrite Hg in Hp. by injection Hp as ->.
    + by rewrite run_snoc, H8.
  - (* ERead *)
    destruct (ch_rup s); [destruct (_ !! _)|];
      exists gops, crafted; cbn; rewrite app_nil_r; try done. by eapply cinv_same.
  - exists gops, crafted; cbn; rewrite app_nil_r. by eapply cinv_same.
  - exists gops, crafted; cbn; rewrite app_nil_r. by eapply cinv_same.
Qed.

Lemma p2p_step s e : ch_p2p (ch_step s e).1 = ch_p2p s ∧ ch_perfect (ch_step s e).1 = ch_perfect s.
Proof. destruct e; cbn; repeat case_match; cbn; done. Qed.
Lemma p2p_run p q es : ch_p2p (ends p q es) = q ∧ ch_perfect (ends p q es) = p.
Proof.
  induction es as [|e es IH] using rev_ind; [done|]. rewrite ends_snoc.
  destruct (p2p_step (ends p q es) e) as [-> ->]. done.
Qed.

Lemma cinv_run p q es :
  forallb (clean q) es = true →
  ∃ gops crafted, cinv (submitted (outs p q es)) (ends p q es) gops crafted.
Proof.
  induction es as [|e es IH] using rev_ind; intros H.
  - exists [], []. split; cbn; try done.
    + intros g r Hg. by apply elem_of_nil in Hg.
    + apply not_elem_of_nil.
  - rewrite forallb_app in H. apply andb_true_iff in H as [H He]. cbn in He.
    rewrite andb_true_r in He. destruct (IH H) as (gops & crafted & HI).
    rewrite ends_snoc, outs_snoc, submitted_app. eapply cinv_step; [|done].
    by rewrite (proj1 (p2p_run p q es)).
Qed.

(** ** Wake-ups *)

Definition awake (s : chan) : Prop :=
  (ch_queue s ≠ [] → ch_notes s ≠ 0%nat ∨ ch_drain s ≠ DIdle) ∧
  (∀ x, ch_sending s = SBack x → ch_notes s ≠ 0%nat) ∧
  (∀ x, ch_drain s = DBack x → ch_notes s ≠ 0%nat).

Lemma awake_step s e :
  is_failure e = false →
  awake s → (∀ x, ch_sending s = SBack x → e = EFinish) →
  awake (ch_step s e).1 ∧ (∀ x, ch_sending (ch_step s e).1 = SBack x → e = ETrig TBack).
Proof.
  intros Hf (H1 & H2 & H4) H3.
  destruct e as [m|t| | | | | | |t| | |groups|i| | |]; cbn [ch_step];
    try (assert (Hns : ∀ x, ch_sending s ≠ SBack x) by (intros x Hx; by specialize (H3 x Hx)));
    unfold awake.
  - destruct (ch_sending s) eqn:Es; [destruct (ch_up s)|..]; cbn; rewrite ?Es; repeat split; auto; try done;
      intros x' Hx'; by destruct (Hns x').
  - destruct (ch_sending s) as [|x|x] eqn:Es; [|destruct t; [..|done]|]; cbn; rewrite ?Es; repeat split; auto; try done.
    by destruct (Hns x).
  - destruct (ch_sending s) as [|x|x] eqn:Es; [| |destruct (ch_perfect s)]; cbn; rewrite ?Es;
      repeat split; auto; try done. intros _. left. by eapply H2.
  - done.
  - cbn. repeat split; auto. intros x Hx. by destruct (Hns x).
  - cbn. repeat split; auto. intros x Hx. by destruct (Hns x).
  - destruct (ch_drain s) eqn:Ed, (ch_notes s) eqn:En; cbn; rewrite ?Ed, ?En; repeat split; auto; try done;
      try (intros x' Hx; by destruct (Hns x')).
  - destruct (ch_drain s) eqn:Ed; [|destruct (ch_queue s) as [|x q] eqn:Eq|..]; cbn; rewrite ?Ed, ?Eq;
      repeat split; auto; try done; try (intros x' Hx; by destruct (Hns x')).
  - destruct (ch_drain s) as [| |x|x] eqn:Ed; [| |destruct t; [..|done]|]; cbn; rewrite ?Ed;
      repeat split; auto; try done; try (intros x' Hx; by destruct (Hns x')).
  - destruct (ch_drain s) as [| |x|x] eqn:Ed; cbn; rewrite ?Ed;
      repeat split; auto; try done; try (intros x' Hx; by destruct (Hns x')).
    intros _. left. by eapply H4.
  - destruct (ch_out s); cbn; repeat split; auto; intros x' Hx; by destruct (Hns x').
  - destruct (ch_p2p s); cbn; repeat split; auto; intros x' Hx; by destruct (Hns x').
  - destruct (_ !! _); cbn; repeat split; auto; intros x' Hx; by destruct (Hns x').
  - destruct (ch_rup s); [destruct (_ !! _)|]; cbn; repeat split; auto; intros x' Hx; by destruct (Hns x').
  - cbn. repeat split; auto. intros x Hx. by destruct (Hns x).
  - cbn. repeat split; auto. intros x Hx. by destruct (Hns x).
Qed.

Lemma awake_run es : ∀ s,
  forallb (negb ∘ is_failure) es = true → prompt es → awake s →
  (∀ x, ch_sending s = SBack x → es = [] ∨ ∃ rest, es = EFinish :: rest) →
  awake (ch_run s es).1.
Proof.
  induction es as [|e es IH]; intros s Hf Hp Ha Hs; [done|].
  cbn in Hf. apply andb_true_iff in Hf as [Hfe Hf]. apply negb_true_iff in Hfe.
  destruct Hp as [Hpe Hp]. rewrite ch_run_cons. cbn [fst].
  destruct (awake_step s e Hfe Ha) as [Ha' Hb].
  { intros x Hx. destruct (Hs x Hx) as [?|[rest [= -> _]]]; done. }
  apply IH; try done. intros x Hx. rewrite (Hb x Hx) in Hpe.
  destruct es as [|[] ?]; try done. right. by eexists.
Qed.

(** In BestEffort mode nothing is ever queued. *)
Lemma best_effort_queue q es : ch_queue (ends false q es) = [] ∧ held_drain (ends false q es) = [].
Proof.
  induction es as [|e es [IH1 IH2]] using rev_ind; [done|].
  rewrite ends_snoc. pose proof (proj2 (p2p_run false q es)) as Hb.
  set (s := ends false q es) in *. clearbody s.
  unfold held_drain in *. destruct e; cbn; repeat case_match; cbn in *; simplify_eq; try done; congruence.
Qed.

Lemma all_delivered p q es :
  short es → forallb (clean q) es = true → (p = true → prompt es) →
  quiet (ends p q es) → delivered (ends p q es) = submitted (outs p q es).
Proof.
  intros Hs Hc Hp Hq.
  assert (Hqueue : ch_queue (ends p q es) = []).
  { destruct p; [|apply best_effort_queue].
    assert (Ha : awake (ends true q es)).
    { unfold ends. apply awake_run; [|by apply Hp|by repeat split|done].
      apply forallb_forall. intros e He. apply (proj1 (forallb_forall _ _) Hc) in He.
      unfold clean in He. by apply andb_true_iff in He as [? _]. }
    destruct Hq as (_ & Hd & Hn & _). destruct Ha as [Ha _].
    destruct (ch_queue (ends true q es)) eqn:E; [done|].
    destruct (Ha ltac:(done)); done. }
  destruct (inv_run p q es Hs) as [g1 HI].
  destruct (cinv_run p q es Hc) as (gops & crafted & HC).
  destruct (delivered_packets _ _ _ _ _ Hs HI) as (_ & _ & Hr & Hcop).
  pose proof (i_group _ _ _ _ _ HI) as Hg. unfold delivered. rewrite (i_msgs _ _ _ _ _ HI).
  clear HI g1. destruct HC as [H1 H2 H3 H4 H5 H6 H7 H8].
  destruct Hq as (Q1 & Q2 & Q3 & Q4 & Q5).
  set (s := ends p q es) in *. set (ms := submitted (outs p q es)) in *. clearbody s ms.
  assert (Hall : ∀ g r, crafted !! N.to_nat g = Some r → Arrive g r ∈ gops).
  { intros g r Hgr. destruct (H6 g r Hgr) as [?|(pk & Hpk & _)]; [done|].
    rewrite Q5 in Hpk. by apply elem_of_nil in Hpk. }
  assert (Hpk : och_delivered (ch_packets s) = crafted).
  { rewrite H8. destruct (copies_exact crafted gops (length crafted)) as [-> _].
    - intros g r Hgr. apply H3, lookup_lt_Some in Hgr. unfold short in Hs. lia.
    - done.
    - done.
    - intros i Hi. destruct (crafted !! N.to_nat i) as [r|] eqn:E.
      + exists r. by apply Hall.
      + apply lookup_ge_None in E. lia.
    - intros r Hr'. apply H3, lookup_lt_Some in Hr'. lia.
    - by apply take_ge. }
  rewrite Hpk in *.
  assert (Hheld : held s = []).
  { unfold held, held_sending, held_drain. by rewrite Q1, Q2, Q4, Hqueue. }
  destruct (copies_exact ms (arrivals crafted) (length ms) Hr Hcop) as [-> _].
  - apply not_gone_arrivals.
  - intros i Hi. destruct (ms !! N.to_nat i) as [m|] eqn:E.
    2: { apply lookup_ge_None in E. lia. }
    exists m. apply elem_of_arrivals. destruct (H7 _ _ E) as [H|(r & Hr' & Hpay)].
    + rewrite Hheld in H. by apply elem_of_nil in H.
    + rewrite N2Nat.id in Hpay. by exists r.
  - intros m Hm. apply Hcop, lookup_lt_Some in Hm. lia.
  - by apply take_ge.
Qed.

Lemma accepted_submitted os : ∀ cur,
  accepted_from cur os `sublist_of` (match cur with Some m => [m] | None => [] end) ++ submitted os.
Proof.
  induction os as [|o os IH]; intros cur; cbn; [apply sublist_nil_l|].
  destruct o; try apply IH.
  - eapply transitivity; [apply IH|]. destruct cur; cbn; [by apply sublist_cons|done].
  - destruct cur; cbn; [apply sublist_skip|]; apply (IH None).
  - eapply transitivity; [apply (IH None)|]. destruct cur; cbn; [by apply sublist_cons|done].
Qed.

(** ** Security levels *)

Lemma packet_level p q es pk :
  OPacket pk ∈ outs p q es →
  pk_level pk = match pk_msg pk with RJust x => um_level x.2 | RKey _ => STANDARD end.
Proof.
  induction es as [|e es IH] using rev_ind; intros H.
  - by apply elem_of_nil in H.
  - rewrite outs_snoc in H. apply elem_of_app in H as [H|H]; [by apply IH|].
    apply elem_of_list_singleton in H. set (s := ends p q es) in *. clearbody s. clear IH.
    destruct e; cbn [ch_step] in H; try (exfalso; repeat case_match; done).
    destruct (ch_out s) as [|r rest]; [done|]. injection H as ->. by destruct r as [[]|].
Qed.

(** No message rides on a packet of a re-key. *)
Definition is_rider (e : ch_event) : bool :=
  match e with ETrig TSent | EDTrig TSent => true | _ => false end.

Lemma no_riders p q es :
  forallb (negb ∘ is_rider) es = true →
  Forall (λ r, ∀ x, r ≠ RKey (Some x)) (ch_out (ends p q es)).
Proof.
  induction es as [|e es IH] using rev_ind; intros H; [constructor|].
  rewrite forallb_app in H. apply andb_true_iff in H as [H He]. cbn in He. rewrite andb_true_r in He.
  rewrite ends_snoc. specialize (IH H). set (s := ends p q es) in *. clearbody s.
  destruct e; cbn [ch_step];
    repeat (match goal with |- context [match ?x with _ => _ end] => destruct x eqn:? end);
    cbn; try done; try (by inversion IH);
    try (apply Forall_app; (split; [done|]); by constructor).
  by rewrite Heql.
Qed.

Lemma level_without_riders p q es pk x :
  forallb (negb ∘ is_rider) es = true →
  OPacket pk ∈ outs p q es → payload (pk_msg pk) = Some x → pk_level pk = um_level x.2.
Proof.
  intros H Hin Hx.
  assert (Hr : ∀ y, pk_msg pk ≠ RKey (Some y)).
  { clear Hx. revert H Hin. induction es as [|e es IH] using rev_ind; intros H Hin.
    - by apply elem_of_nil in Hin.
    - rewrite forallb_app in H. apply andb_true_iff in H as [H _].
      rewrite outs_snoc in Hin. apply elem_of_app in Hin as [Hin|Hin]; [by apply IH|].
      apply elem_of_list_singleton in Hin. pose proof (no_riders p q es H) as Hn.
      set (s := ends p q es) in *. clearbody s. clear IH.
      destruct e; cbn [ch_step] in Hin; try (exfalso; repeat case_match; done).
      destruct (ch_out s) as [|r rest]; [done|]. injection Hin as ->. by inversion Hn. }
  rewrite (packet_level p q es pk Hin). destruct (pk_msg pk) as [y|[y|]]; cbn in Hx.
  - by injection Hx as ->.
  - by destruct (Hr y).
  - done.
Qed.
