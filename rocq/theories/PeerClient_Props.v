(** C138-C153: what a client does with peer connections. *)
From Coq Require Import ZifyBool ZifyNat ZifyN.
From stdpp Require Import prelude gmap.
From Verif Require Import PeerClient_Model PeerClient_Spec PeerClient_Proofs PeerClient_Pair.
Local Open Scope N_scope.

Lemma run_of c0 es tr : snd <$> crun c0 es = Some tr → ∃ c, crun c0 es = Some (c, tr).
Proof. destruct (crun c0 es) as [[c t]|]; [|done]. cbn. intros [= ->]. by exists c. Qed.

(** What user 1 does in the examples: a connection with 2 that the user asks for ([asked]), one that user 2 asks for. *)
Definition asked (tk x y id : N) : list cevent :=
  [UConnect (1, 2) tk 0 None None;
   Signal tk x id (GConnect (2, 1) (Some true) 0);
   Signal tk 0 0 (GStage1 (2, 1) (Some (x, y, 0)) true id)].
Definition accepted (tk x y id : N) : list cevent :=
  [Signal tk 0 0 (GConnect (2, 1) None 0);
   UConnect (1, 2) tk 0 None (Some true);
   Signal tk y 0 (GStage0 (2, 1) (Some x) 0 id);
   Signal tk 0 0 (GStage2 (2, 1) true)].
Example asked_example :
  snd <$> crun (client_init 1 ∅) (asked 10 50 51 60) = Some
    [(UConnect (1, 2) 10 0 None None, [ToServer 10 (GConnect (1, 2) None 0)]);
     (Signal 10 50 60 (GConnect (2, 1) (Some true) 0), [ToServer 10 (GStage0 (1, 2) (Some 50) 0 60)]);
     (Signal 10 0 0 (GStage1 (2, 1) (Some (50, 51, 0)) true 60),
      [ToServer 10 (GStage2 (1, 2) false); Channel 10 1 2 60 (50, 51, 0)])].
Proof. vm_compute. reflexivity. Qed.
Example accepted_example :
  snd <$> crun (client_init 1 ∅) (accepted 10 50 51 60) = Some
    [(Signal 10 0 0 (GConnect (2, 1) None 0), [ToKernel 10 (GConnect (2, 1) None 0)]);
     (UConnect (1, 2) 10 0 None (Some true), [ToServer 10 (GConnect (1, 2) (Some true) 0)]);
     (Signal 10 51 0 (GStage0 (2, 1) (Some 50) 0 60), [ToServer 10 (GStage1 (1, 2) (Some (50, 51, 0)) false 60)]);
     (Signal 10 0 0 (GStage2 (2, 1) true), [Channel 10 1 2 60 (50, 51, 0)])].
Proof. vm_compute. reflexivity. Qed.

(** C138: a channel with a peer is given to a user only if they asked for it or accepted it.  False: the user who
    declined an invitation of 2 gets a channel when 2 invites again.  The client noted the Decline as an attempt of its own. *)
Definition declined : list cevent :=
  [Signal 7 0 0 (GConnect (2, 1) None 0);
   UConnect (1, 2) 7 0 None (Some false);
   Signal 8 0 0 (GConnect (2, 1) None 0);
   Signal 8 51 0 (GStage0 (2, 1) (Some 50) 0 60);
   Signal 8 0 0 (GStage2 (2, 1) true)].
Definition declined_trace : ctrace :=
  [(Signal 7 0 0 (GConnect (2, 1) None 0), [ToKernel 7 (GConnect (2, 1) None 0)]);
   (UConnect (1, 2) 7 0 None (Some false), [ToServer 7 (GConnect (1, 2) (Some false) 0)]);
   (Signal 8 0 0 (GConnect (2, 1) None 0), [ToServer 8 (GConnect (1, 2) (Some true) 0)]);
   (Signal 8 51 0 (GStage0 (2, 1) (Some 50) 0 60), [ToServer 8 (GStage1 (1, 2) (Some (50, 51, 0)) false 60)]);
   (Signal 8 0 0 (GStage2 (2, 1) true), [Channel 7 1 2 60 (50, 51, 0)])].
Lemma declined_run : ∃ c, crun (client_init 1 ∅) declined = Some (c, declined_trace).
Proof. apply run_of. vm_compute. reflexivity. Qed.
Theorem C138_refuted :
  ¬ (∀ cid peers es c tr i e os t this p id k,
       crun (client_init cid peers) es = Some (c, tr) → tr !! i = Some (e, os) → Channel t this p id k ∈ os →
       Exists (wants p) (take i es)).
Proof.
  intros H. destruct declined_run as [c Hr].
  specialize (H 1 ∅ declined c declined_trace 4%nat _ _ 7 1 2 60 (50, 51, 0) Hr eq_refl).
  assert (Exists (wants 2) (take 4 declined)) as He by (apply H; by left).
  cbn in He. repeat (apply Exists_cons in He as [He|He]; [cbn in He; try done; by destruct He|]). by inversion He.
Qed.
(** What holds: the user has said something about that peer before. *)
Theorem C138_partial cid peers es c tr i e os t this p id k :
  crun (client_init cid peers) es = Some (c, tr) → tr !! i = Some (e, os) → Channel t this p id k ∈ os →
  Exists (speaks_of p) (take i es).
Proof.
  intros Hr Hi Hin. destruct (crun_at _ _ _ _ _ _ _ Hr Hi) as (c1 & c2 & H1 & H2 & _ & _).
  pose proof (channel_inv _ _ _ _ _ _ _ _ _ H2 Hin) as Hch. destruct Hch as ([w Hw] & _).
  eapply Exists_impl; [by eapply pws_spoken|]. intros d. destruct d; try done. cbn. tauto.
Qed.
Print Assumptions C138_refuted.
Print Assumptions C138_partial.

(** C139: an invitation is put before the user unless they are themselves asking for that connection.  False: after a
    Decline the client with the higher number says nothing at all, the one with the lower number accepts. *)
Definition invitation (p me tk set : N) : cevent := Signal tk 0 0 (GConnect (p, me) None set).
Theorem C139_ignored_refuted :
  ¬ (∀ cid peers es c tr p tk set c' os,
       crun (client_init cid peers) es = Some (c, tr) → ¬ Exists (wants p) es →
       on_event c (invitation p cid tk set) = Some (c', os) → os ≠ []).
Proof.
  intros H. set (es := [invitation 2 5 7 0; UConnect (5, 2) 7 0 None (Some false)]).
  destruct (run_of (client_init 5 ∅) (es ++ [invitation 2 5 8 0])
    [(invitation 2 5 7 0, [ToKernel 7 (GConnect (2, 5) None 0)]);
     (UConnect (5, 2) 7 0 None (Some false), [ToServer 7 (GConnect (5, 2) (Some false) 0)]);
     (invitation 2 5 8 0, [])]) as [c Hr]; [vm_compute; reflexivity|].
  destruct (crun_at _ _ _ _ 2 _ _ Hr eq_refl) as (c1 & c2 & H1 & H2 & _ & _).
  refine (H 5 ∅ es c1 _ 2 8 0 c2 [] H1 _ H2 eq_refl).
  intros He. unfold es in He. apply Exists_cons in He as [He|He]; [done|].
  apply Exists_cons in He as [[_ He]|He]; [by apply He|inversion He].
Qed.
Theorem C139_accepted_refuted :
  ¬ (∀ cid peers es c tr p tk set c' os,
       crun (client_init cid peers) es = Some (c, tr) → ¬ Exists (wants p) es →
       on_event c (invitation p cid tk set) = Some (c', os) → ToServer tk (GConnect (cid, p) (Some true) set) ∉ os).
Proof.
  intros H. destruct declined_run as [c Hr].
  destruct (crun_at _ _ _ _ 2 _ _ Hr eq_refl) as (c1 & c2 & H1 & H2 & _ & _).
  refine (H 1 ∅ _ c1 _ 2 8 0 c2 _ H1 _ H2 _).
  - cbn. intros He. apply Exists_cons in He as [He|He]; [done|].
    apply Exists_cons in He as [[_ He]|He]; [by apply He|inversion He].
  - by left.
Qed.
(** What holds: it is put before the user, and changes nothing, if they have said nothing about the peer since they last
    got a channel with it. *)
Theorem C139_partial cid peers es c tr p tk r i set :
  crun (client_init cid peers) es = Some (c, tr) → open_ticket p tr = None →
  on_event c (Signal tk r i (GConnect (p, cid) None set)) = Some (c, [ToKernel tk (GConnect (p, cid) None set)]).
Proof.
  intros Hr Ho. destruct (tries_open _ _ p _ _ _ Hr) as [H1 _]. cbn.
  destruct (cl_tries c !! p) as [[t s]|] eqn:E; [|done]. rewrite (H1 _ _ eq_refl) in Ho. done.
Qed.
Example C139_example :
  open_ticket 2 [] = None ∧
  (λ x, open_ticket 2 x.2) <$> crun (client_init 1 ∅) (accepted 10 50 51 60) = Some None ∧
  (λ x, open_ticket 2 x.2) <$> crun (client_init 1 ∅) [UConnect (1, 2) 7 0 None (Some false)] = Some (Some 7).
Proof. vm_compute. auto. Qed.
Print Assumptions C139_ignored_refuted.
Print Assumptions C139_accepted_refuted.
Print Assumptions C139_partial.

(** C140: no signal makes a client panic.  False: a peer (or the server) that goes through the handshake with a user who
    has never said anything about it. *)
Theorem C140_refuted : ¬ (∀ cid peers es, is_Some (crun (client_init cid peers) es)).
Proof.
  intros H. destruct (H 1 ∅ [Signal 8 51 0 (GStage0 (2, 1) (Some 50) 0 60); Signal 8 0 0 (GStage2 (2, 1) true)]) as [x Hx].
  revert Hx. by vm_compute.
Qed.
Theorem C140_partial cid peers es :
  crun (client_init cid peers) es = None →
  ∃ i tk r f s p, es !! i = Some (Signal tk r f s) ∧ ¬ Exists (speaks_of p) (take i es) ∧
    ((∃ this k j, s = GStage1 (p, this) (Some k) true j) ∨ ∃ this, s = GStage2 (p, this) true).
Proof.
  intros Hn. destruct (crun_none _ _ Hn) as (i & e & c1 & tr1 & H1 & H2 & H3).
  destruct (panic_inv _ _ H3) as (tk & r & f & s & p & -> & Hp & Hs). exists i, tk, r, f, s, p.
  split; [done|]. split.
  { intros Hs'. destruct (spoken_pws _ _ _ _ _ _ H2 Hs') as [w Hw]. congruence. }
  destruct Hs as [([a b] & k & j & -> & <-)|([a b] & -> & <-)]; [left; by eauto|right; by eauto].
Qed.
Print Assumptions C140_refuted.
Print Assumptions C140_partial.

(** C141: while the user has a connection with a peer, no second one is made, and whatever happens short of a disconnect
    that concerns it, the packets of the peer are read under the keys of that connection. *)
Theorem C141_kept cid peers es c tr p id k e c' os :
  crun (client_init cid peers) es = Some (c, tr) → current cid p tr = Some (id, k) →
  packet_key c p 0 = Some k ∧
  (on_event c e = Some (c', os) →
     (∀ t this id' k', Channel t this p id' k' ∉ os) ∧
     (ends cid p id e = false → packet_key c' p 0 = Some k ∧ current cid p (tr ++ [(e, os)]) = Some (id, k))).
Proof.
  intros Hr Hc. destruct (current_live _ _ p _ _ _ Hr) as [Hcid Hl]. destruct (Hl _ _ Hc) as [n Hn].
  split; [unfold packet_key; rewrite Hn; cbn [vl_version vl_key]; by destruct n|]. intros He. split.
  - intros t this id' k' Hin. pose proof (channel_inv _ _ _ _ _ _ _ _ _ He Hin) as Hch. destruct Hch as (_ & Ha & _). by specialize (Ha _ Hn).
  - intros Hend.
    assert (handed p os = None) as Hh.
    { destruct (handed p os) as [[i j]|] eqn:E; [|done]. destruct (handed_in _ _ _ _ E) as (t & this & Hin).
      pose proof (channel_inv _ _ _ _ _ _ _ _ _ He Hin) as Hch. destruct Hch as (_ & Ha & _). by specialize (Ha _ Hn). }
    destruct (links_event _ _ _ _ _ _ He Hn Hh) as [n' Hn']; [by rewrite Hcid|].
    split; [unfold packet_key; rewrite Hn'; cbn [vl_version vl_key]; by destruct n'|].
    unfold current. rewrite foldl_app. cbn [foldl]. fold (current cid p tr). unfold after_event. cbn [fst snd].
    by rewrite Hh, Hc, Hend.
Qed.
Example C141_example :
  (λ x, (current 1 2 x.2, packet_key x.1 2 0)) <$>
    crun (client_init 1 ∅) (asked 10 50 51 60 ++ accepted 11 70 71 80 ++ [Signal 5 0 0 (GDisconnect (2, 1) (Some 99) false)])
  = Some (Some (60, (50, 51, 0)), Some (50, 51, 0)).
Proof. vm_compute. reflexivity. Qed.
Print Assumptions C141_kept.

(** C142: a disconnect about one connection does not end a later one.  False: [disconnect] of a remote handle says which
    peer, not which connection. *)
Definition reconnected : list cevent :=
  asked 10 50 51 60 ++ [UDisconnect (1, 2) 11 None; StreamEnded 2 60] ++ asked 12 70 71 80 ++
  [Signal 11 0 0 (GDisconnect (1, 2) None true)].
Theorem C142_refuted :
  ¬ (∀ cid peers es c tr i j p tk tok cn note os r f os' id1 k1 id2 k2,
       crun (client_init cid peers) es = Some (c, tr) →
       tr !! i = Some (UDisconnect cn tk tok, os) → current cid p (take i tr) = Some (id1, k1) →
       tr !! j = Some (Signal tk r f (GDisconnect cn tok note), os') → current cid p (take j tr) = Some (id2, k2) →
       (i < j)%nat → id1 ≠ id2 → current cid p (take (S j) tr) = Some (id2, k2) ∨ os' = []).
Proof.
  intros H.
  assert (snd <$> crun (client_init 1 ∅) reconnected = Some (snd (default (client_init 1 ∅, []) (crun (client_init 1 ∅) reconnected)))) as Hr.
  { vm_compute. reflexivity. }
  apply run_of in Hr as [c Hr].
  specialize (H 1 ∅ _ c _ 3%nat 8%nat 2 11 None (1, 2) true [ToServer 11 (GDisconnect (1, 2) None false)] 0 0
    [ToKernel 11 (GDisconnect (1, 2) None true)] 60 (50, 51, 0) 80 (70, 71, 0) Hr). clear Hr.
  destruct H as [H|H]; [vm_compute; reflexivity..|clear; lia|clear; lia| |discriminate H].
  vm_compute in H. discriminate H.
Qed.
Theorem C142_partial cid peers es c tr p id k tk r f cn t note :
  crun (client_init cid peers) es = Some (c, tr) → current cid p tr = Some (id, k) →
  other_party cid cn = p → t ≠ id →
  on_event c (Signal tk r f (GDisconnect cn (Some t) note)) = Some (c, []).
Proof.
  intros Hr Hc Ho Ht. destruct (current_live _ _ p _ _ _ Hr) as [Hcid Hl]. destruct (Hl _ _ Hc) as [n Hn].
  cbn. rewrite Hcid, Ho, Hn. cbn. destruct (N.eqb_spec id t); [by subst|done].
Qed.
Print Assumptions C142_refuted.
Print Assumptions C142_partial.

(** C143: the channel comes under the ticket of what the user last said about the peer.  False: when the direct stream of
    the connection before ends, the client forgets the new request too. *)
Definition forgotten : list cevent :=
  asked 10 50 51 60 ++
  [UConnect (1, 2) 12 0 None None;
   StreamEnded 2 60;
   Signal 99 71 0 (GStage0 (2, 1) (Some 70) 0 80);
   Signal 99 0 0 (GStage2 (2, 1) true)].
Theorem C143_refuted :
  ¬ (∀ cid peers es c tr i e os t this p id k t',
       crun (client_init cid peers) es = Some (c, tr) → tr !! i = Some (e, os) → Channel t this p id k ∈ os →
       open_ticket p (take i tr) = Some t' → t = t').
Proof.
  intros H.
  assert (snd <$> crun (client_init 1 ∅) forgotten = Some (snd (default (client_init 1 ∅, []) (crun (client_init 1 ∅) forgotten)))) as Hr.
  { vm_compute. reflexivity. }
  apply run_of in Hr as [c Hr].
  specialize (H 1 ∅ _ c _ 6%nat (Signal 99 0 0 (GStage2 (2, 1) true)) [Channel 99 1 2 80 (70, 71, 0)] 99 1 2 80 (70, 71, 0) 12 Hr).
  discriminate H; [by vm_compute|by left|by vm_compute].
Qed.
(** What holds: it does if no stream of that peer has ended since; and if nothing was said since the last channel, the ticket
    is that of the signal. *)
Theorem C143_partial cid peers es c tr i e os t this p id k :
  crun (client_init cid peers) es = Some (c, tr) → tr !! i = Some (e, os) → Channel t this p id k ∈ os →
  match open_ticket p (take i tr) with
  | Some t' => stream_since p (take i tr) = false → t = t'
  | None => ∃ r f s, e = Signal t r f s
  end.
Proof.
  intros Hr Hi Hin. destruct (crun_at _ _ _ _ _ _ _ Hr Hi) as (c1 & c2 & H1 & H2 & _ & _).
  pose proof (channel_inv _ _ _ _ _ _ _ _ _ H2 Hin) as Hch. destruct Hch as (_ & _ & _ & _ & _ & _ & _ & tk & r & f & m & cn & -> & _ & _ & _ & _ & He).
  destruct (tries_open _ _ p _ _ _ H1) as [T1 T2]. unfold channel_ticket.
  destruct (open_ticket p (take i tr)) as [t'|] eqn:Eo.
  - intros Hs. destruct (T2 _ eq_refl Hs) as [s Hts]. by rewrite Hts.
  - destruct (cl_tries c1 !! p) as [[t s]|] eqn:E; [by specialize (T1 _ _ eq_refl)|].
    destruct He as [(j & -> & _)|(-> & _)]; by eauto.
Qed.
Example C143_example :
  (λ x, (open_ticket 2 (take 2 x.2), stream_since 2 (take 2 x.2))) <$> crun (client_init 1 ∅) (asked 10 50 51 60)
  = Some (Some 10, false).
Proof. vm_compute. reflexivity. Qed.
Print Assumptions C143_refuted.
Print Assumptions C143_partial.

(** C144: the keys of a channel are made with a password the user gave for that peer.  False: a peer that begins before
    the user asks is served with the empty password, and the user's request is then taken to be answered by it. *)
Definition smuggled : list cevent :=
  [Signal 8 51 0 (GStage0 (2, 1) (Some 50) 0 60);
   UConnect (1, 2) 12 0 (Some 77) None;
   Signal 8 0 0 (GStage2 (2, 1) true)].
Theorem C144_refuted :
  ¬ (∀ cid peers es c tr i e os t this p id k,
       crun (client_init cid peers) es = Some (c, tr) → tr !! i = Some (e, os) → Channel t this p id k ∈ os →
       Exists (speaks_with p k.2) (take i es)).
Proof.
  intros H. destruct (run_of (client_init 1 ∅) smuggled
    [(Signal 8 51 0 (GStage0 (2, 1) (Some 50) 0 60), [ToServer 8 (GStage1 (1, 2) (Some (50, 51, 0)) false 60)]);
     (UConnect (1, 2) 12 0 (Some 77) None, [ToServer 12 (GConnect (1, 2) None 0)]);
     (Signal 8 0 0 (GStage2 (2, 1) true), [Channel 12 1 2 60 (50, 51, 0)])]) as [c Hr]; [vm_compute; reflexivity|].
  specialize (H 1 ∅ _ c _ 2%nat _ _ 12 1 2 60 (50, 51, 0) Hr eq_refl).
  assert (Exists (speaks_with 2 0) (take 2 smuggled)) as He by (apply H; by left).
  cbn in He. apply Exists_cons in He as [He|He]; [done|].
  apply Exists_cons in He as [[_ He]|He]; [done|inversion He].
Qed.
Theorem C144_partial cid peers es c tr i e os t this p id k :
  crun (client_init cid peers) es = Some (c, tr) → tr !! i = Some (e, os) → Channel t this p id k ∈ os →
  bidden p (take i es) → Exists (speaks_with p k.2) (take i es).
Proof.
  intros Hr Hi Hin Hb. destruct (crun_at _ _ _ _ _ _ _ Hr Hi) as (c1 & c2 & H1 & H2 & _ & _).
  pose proof (channel_inv _ _ _ _ _ _ _ _ _ H2 Hin) as Hch. destruct Hch as (_ & _ & _ & _ & _ & _ & _ & tk & r & f & m & cn & -> & Hm & _ & _ & _ & He).
  destruct (bidden_pw _ _ p _ _ _ H1 Hb m Hm) as [J1 J2].
  destruct He as [(j & _ & _ & <-)|(_ & Hc)]; [done|]. rewrite Hc in J2. by rewrite J2.
Qed.
Example C144_example : bidden 2 (take 2 (asked 10 50 51 60)) ∧ ¬ bidden 2 (take 2 smuggled).
Proof.
  split.
  - intros i e Hi Hb. destruct i as [|[|i]]; cbn in Hi; [by injection Hi as <-| |done].
    exists O, (UConnect (1, 2) 10 0 None None). split; [lia|]. done.
  - intros H. destruct (H O _ eq_refl eq_refl) as (j & d & Hj & _). lia.
Qed.
Print Assumptions C144_refuted.
Print Assumptions C144_partial.

(** C145: the peers of an account on this machine change only at that account's own session, and a peer is added only if
    the user asked or accepted.  False on both counts. *)
Theorem C145_other_refuted :
  ¬ (∀ cid peers es c tr a, crun (client_init cid peers) es = Some (c, tr) → a ≠ cid → cl_peers c !! a = peers !! a).
Proof.
  intros H. set (es := [Signal 4 0 0 (GRegister (9, 3) (Some (Some 66)))]).
  destruct (run_of (client_init 1 {[1 := ∅; 3 := ∅]}) es
    [(Signal 4 0 0 (GRegister (9, 3) (Some (Some 66))), [ToKernel 4 (GRegister (9, 3) (Some (Some 66)))])]) as [c Hr];
    [vm_compute; reflexivity|].
  assert ((λ x, (λ l : gmap N N, l !! 9) <$> (cl_peers x.1 !! 3)) <$> crun (client_init 1 {[1 := ∅; 3 := ∅]}) es = Some (Some (Some 66))) as Hl
    by (vm_compute; reflexivity).
  rewrite Hr in Hl. cbn in Hl. injection Hl as Hl. rewrite (H _ _ _ _ _ 3 Hr) in Hl by done. revert Hl. by vm_compute.
Qed.
Theorem C145_unasked_refuted :
  ¬ (∀ cid peers es c tr l p u,
       crun (client_init cid peers) es = Some (c, tr) → peers !! cid = Some ∅ → cl_peers c !! cid = Some l → l !! p = Some u →
       Exists (λ e, match e with UPass _ (GRegister cn _) => cn = (cid, p) | _ => False end) es).
Proof.
  intros H. set (es := [Signal 4 0 0 (GRegister (9, 1) (Some (Some 66)))]).
  destruct (run_of (client_init 1 {[1 := ∅]}) es
    [(Signal 4 0 0 (GRegister (9, 1) (Some (Some 66))), [ToKernel 4 (GRegister (9, 1) (Some (Some 66)))])]) as [c Hr];
    [vm_compute; reflexivity|].
  assert ((λ x, (λ l : gmap N N, l !! 9) <$> (cl_peers x.1 !! 1)) <$> crun (client_init 1 {[1 := ∅]}) es = Some (Some (Some 66))) as Hl
    by (vm_compute; reflexivity).
  rewrite Hr in Hl. cbn in Hl. injection Hl as Hl.
  destruct (cl_peers c !! 1) as [l|] eqn:El; [|done]. injection Hl as Hl.
  assert (Exists (λ e, match e with UPass _ (GRegister cn _) => cn = (1, 9) | _ => False end) es) as He
    by (eapply H; [done|by vm_compute|done|done]).
  unfold es in He. apply Exists_cons in He as [He|He]; [done|inversion He].
Qed.
(** What holds: a list changes only by a signal that names its account and says so, or by a deregistration at the
    account's own session; and then by that one peer. *)
Theorem C145_partial cid peers es c tr e c' os a :
  crun (client_init cid peers) es = Some (c, tr) → on_event c e = Some (c', os) →
  cl_peers c' !! a = cl_peers c !! a ∨
  (∃ tk r i p u l, e = Signal tk r i (GRegister (p, a) (Some (Some u))) ∧ cl_peers c !! a = Some l ∧
     cl_peers c' !! a = Some (<[p := u]> l)) ∨
  (∃ tk r i q p l, e = Signal tk r i (GDeregistered (q, p)) ∧ a = cid ∧ cl_peers c !! a = Some l ∧
     cl_peers c' !! a = Some (delete p l)).
Proof.
  intros Hr He. destruct (current_live _ _ 0 _ _ _ Hr) as [<- _]. by eapply peers_event.
Qed.
Example C145_example :
  (λ x, (λ l : gmap N N, (l !! 8, l !! 9)) <$> (cl_peers x.1 !! 1)) <$>
    crun (client_init 1 {[1 := {[8 := 80; 9 := 90]}]}) [Signal 4 0 0 (GDeregistered (1, 9))]
  = Some (Some (Some 80, None)).
Proof. vm_compute. reflexivity. Qed.
Print Assumptions C145_other_refuted.
Print Assumptions C145_unasked_refuted.
Print Assumptions C145_partial.

(** C146: the packets of a peer are read, if at all, under the keys of the latest connection the user was given with it;
    also when that has ended. *)
Theorem C146_latest cid peers es c tr p v k :
  crun (client_init cid peers) es = Some (c, tr) → packet_key c p v = Some k → ∃ id, latest p tr = Some (id, k).
Proof.
  intros Hr. destruct (latest_keys _ _ p _ _ _ Hr) as [L1 L2]. unfold packet_key.
  destruct (cl_links c !! p) as [l|] eqn:El.
  - destruct (v <=? vl_version l); [|done]. intros [= <-]. eexists; by apply L1.
  - destruct (cl_stale c !! p) as [[k0 w]|] eqn:Es; [|done]. destruct (w =? v); [|done]. intros [= ->]. by eapply L2.
Qed.
Example C146_example :
  (λ x, (packet_key x.1 2 1, latest 2 x.2, packet_key x.1 2 0)) <$>
    crun (client_init 1 ∅) (asked 10 50 51 60 ++ [Rekeyed 2; Signal 3 0 0 (GDisconnect (2, 1) (Some 60) false)])
  = Some (Some (50, 51, 0), Some (60, (50, 51, 0)), None).
Proof. vm_compute. reflexivity. Qed.
Print Assumptions C146_latest.
(** … and after a disconnect the packets still under way are read: those under the keys as they last were. *)
Theorem C146_late cid peers es c tr p id k tk r f cn token note c' os :
  crun (client_init cid peers) es = Some (c, tr) → current cid p tr = Some (id, k) →
  ends cid p id (Signal tk r f (GDisconnect cn token note)) = true →
  on_event c (Signal tk r f (GDisconnect cn token note)) = Some (c', os) →
  (∀ v, packet_key c p v = if v <=? rekeys p tr then Some k else None) ∧
  (∀ v, packet_key c' p v = if v =? rekeys p tr then Some k else None).
Proof.
  intros Hr Hc Hend He. destruct (current_live _ _ p _ _ _ Hr) as [Hcid Hl]. destruct (Hl _ _ Hc) as [n Hn].
  pose proof (versions_rekeys _ _ p _ _ _ Hr _ Hn) as Hv. cbn [vl_version] in Hv. rewrite <- Hv. split.
  - intros v. unfold packet_key. by rewrite Hn.
  - intros v. cbn in Hend. apply andb_true_iff in Hend as [Hp Ht]. apply bool_decide_eq_true in Hp.
    cbn in He. rewrite Hcid in He. unfold other_party in He. rewrite Hp, Hn in He.
    assert (match token with Some t => negb (id =? t) | None => false end = false) as Hs.
    { destruct token as [t|]; [|done]. apply N.eqb_eq in Ht as ->. by rewrite N.eqb_refl. }
    cbn [vl_id] in He. destruct token as [t|]; [rewrite Hs in He|]; injection He as <- _;
      unfold packet_key, drop_link; rewrite Hn; cbn; rewrite lookup_delete, lookup_insert; by rewrite N.eqb_sym.
Qed.
Print Assumptions C146_late.

(** C147: a refused request is reported to the user once.  False: twice, as an error and as the answer. *)
Theorem C147_refuted :
  ¬ (∀ cid peers es c tr tk r f cn set c' os,
       crun (client_init cid peers) es = Some (c, tr) →
       on_event c (Signal tk r f (GConnect cn (Some false) set)) = Some (c', os) → length os = 1%nat).
Proof. intros H. specialize (H 1 ∅ [] _ _ 7 0 0 (2, 1) 0 _ _ eq_refl eq_refl). discriminate H. Qed.
(** What holds: the user hears of it, under the ticket of the answer, and nothing else happens; a deregistration too is reported. *)
Theorem C147_partial cid peers es c tr tk r f cn set :
  crun (client_init cid peers) es = Some (c, tr) →
  on_event c (Signal tk r f (GConnect cn (Some false) set)) =
    Some (c, [ToKernel tk (GError (cn.2, cn.1)); ToKernel tk (GConnect cn (Some false) set)]).
Proof. done. Qed.
Print Assumptions C147_refuted.
Print Assumptions C147_partial.

(** C148: the first user asks, the second accepts.  With the same password both get one channel, to each other, with the same
    number and keys, under their own tickets; with different passwords neither gets one and both are told.  In
    every order of events, within four steps. *)
Theorem C148_accepted c0 c1 a b t0 t1 w0 w1 tk set n f bs w :
  cl_cid c0 = a → cl_cid c1 = b → ready c0 b t0 w0 → ready c1 a t1 w1 →
  (∀ k, cl_kems c1 !! a = Some k → km_ctor k = None) →
  wrun (mk_world c0 c1 [(tk, GConnect (b, a) (Some true) set)] [] [] [] n f) bs = Some w →
  (length bs ≤ 4)%nat ∧ flows w ∧
  (quiet w →
     (w0 = w1 → joined w a b t0 t1 w0 ∧ ∀ tk' cn, ToKernel tk' (GError cn) ∉ wd_got0 w ++ wd_got1 w) ∧
     (w0 ≠ w1 → channels (wd_got0 w) = [] ∧ channels (wd_got1 w) = [] ∧
        Failed tk ∈ wd_got0 w ∧ ToKernel tk (GError (a, b)) ∈ wd_got1 w)).
Proof.
  intros H0 H1 R0 R1 Hk Hr.
  eapply (settles_run (λ w, (w0 = w1 → joined w a b t0 t1 w0 ∧ ∀ tk' cn, ToKernel tk' (GError cn) ∉ wd_got0 w ++ wd_got1 w) ∧
     (w0 ≠ w1 → channels (wd_got0 w) = [] ∧ channels (wd_got1 w) = [] ∧
        Failed tk ∈ wd_got0 w ∧ ToKernel tk (GError (a, b)) ∈ wd_got1 w))) in Hr; [exact Hr|].
  eapply (handshake_settles a b t0 t1 w0 w1 (cl_kems c0 !! b) (cl_kems c1 !! a)); [done|done| | |].
  - intros _. destruct (cl_kems c1 !! a); [by apply Hk|done].
  - intros -> c c' f'. split; [intros _; split|done].
    + eexists _, _. split; [reflexivity|]. split; [reflexivity|]. done.
    + intros tk' cn. cbn. rewrite !elem_of_cons, elem_of_nil. intros H. by destruct_or! H.
  - intros Hw c c' f'. split; [done|]. intros _. split; [done|]. split; [done|]. cbn. rewrite !elem_of_cons. auto.
Qed.

(** clients whose users have just spoken of each other *)
Definition wanting (me p t w : N) : client := mk_client me ∅ ∅ ∅ {[p := (t, 0)]} {[p := w]} ∅.
Lemma wanting_ready me p t w : ready (wanting me p t w) p t w.
Proof. split; [exists 0; apply lookup_singleton|]. split; [apply lookup_singleton|]. intros v H. done. Qed.
Example C148_example :
  fst <$> crun (client_init 1 ∅) [UConnect (1, 2) 10 0 (Some 7) None] = Some (wanting 1 2 10 7) ∧
  (λ w, (wd_got0 w, wd_got1 w)) <$>
    wrun (mk_world (wanting 1 2 10 7) (wanting 2 1 10 7) [(10, GConnect (2, 1) (Some true) 0)] [] [] [] 0 100)
      [true; false; true; false] =
  Some ([ToServer 10 (GStage0 (1, 2) (Some 100) 0 101); ToServer 10 (GStage2 (1, 2) false); Channel 10 1 2 101 (100, 102, 7)],
        [ToServer 10 (GStage1 (2, 1) (Some (100, 102, 7)) false 101); Channel 10 2 1 101 (100, 102, 7)]).
Proof. split; [reflexivity|]. vm_compute. reflexivity. Qed.
Print Assumptions C148_accepted.

(** C149: both users ask at once, and the server puts each request to the other client.  Both get one channel, in every
    order of events: the client with the lower number answers, the other keeps still. *)
Theorem C149_crossed c0 c1 a b t0 t1 pw tk tk' set set' n f bs w :
  cl_cid c0 = a → cl_cid c1 = b → b < a → ready c0 b t0 pw → ready c1 a t1 pw →
  wrun (mk_world c0 c1 [(tk, GConnect (b, a) None set)] [(tk', GConnect (a, b) None set')] [] [] (S n) f) bs = Some w →
  (length bs ≤ 6)%nat ∧ flows w ∧ (quiet w → joined w a b t0 t1 pw).
Proof.
  intros H0 H1 Hlt R0 R1 Hr. eapply (settles_run (λ w, joined w a b t0 t1 pw)) in Hr; [exact Hr|].
  eapply (crossed_settles _ a b t0 t1 pw); done.
Qed.
Example C149_example :
  (λ w, (channels (wd_got0 w), channels (wd_got1 w), wd_down0 w, wd_down1 w)) <$>
    wrun (mk_world (wanting 2 1 10 7) (wanting 1 2 20 7) [(20, GConnect (1, 2) None 0)] [(10, GConnect (2, 1) None 0)] [] [] 1 100)
      [false; true; true; false; true; false] =
  Some ([Channel 10 2 1 105 (104, 106, 7)], [Channel 20 1 2 105 (104, 106, 7)], [], []).
Proof. vm_compute. reflexivity. Qed.
Print Assumptions C149_crossed.

(** C150: both users ask at once, and the server takes the second request for an acceptance of the first.  The same. *)
Theorem C150_detected c0 c1 a b t0 t1 pw tk tk' set set' f bs w :
  cl_cid c0 = a → cl_cid c1 = b → a ≠ b → ready c0 b t0 pw → ready c1 a t1 pw →
  wrun (mk_world c0 c1 [(tk, GConnect (b, a) (Some true) set)] [(tk', GConnect (a, b) None set')] [] [] 0 f) bs = Some w →
  (length bs ≤ 6)%nat ∧ flows w ∧ (quiet w → joined w a b t0 t1 pw).
Proof.
  intros H0 H1 Hne R0 R1 Hr. eapply (settles_run (λ w, joined w a b t0 t1 pw)) in Hr; [exact Hr|].
  eapply (detected_settles _ a b t0 t1 pw); done.
Qed.
Definition detected_world : world :=
  mk_world (wanting 2 1 10 7) (wanting 1 2 20 7) [(10, GConnect (1, 2) (Some true) 0)] [(10, GConnect (2, 1) None 0)] [] [] 0 100.
Example C150_example :
  (λ w, (channels (wd_got0 w), channels (wd_got1 w), wd_down0 w, wd_down1 w)) <$>
    wrun detected_world [true; false; false; true; false; false] =
  Some ([Channel 10 2 1 101 (100, 104, 7)], [Channel 20 1 2 101 (100, 104, 7)], [], []).
Proof. vm_compute. reflexivity. Qed.
Print Assumptions C150_detected.

(** C151: a user whose request has led to a connection is not told of an error.  False when requests cross: the client
    with the lower number accepts what the server has already settled, and hands the server's error to its user.
    (It does hold of a request that is accepted: C148_accepted.) *)
Theorem C151_refuted :
  ¬ (∀ c0 c1 a b t0 t1 pw tk tk' set set' f bs w tk2 cn,
       cl_cid c0 = a → cl_cid c1 = b → a ≠ b → ready c0 b t0 pw → ready c1 a t1 pw →
       wrun (mk_world c0 c1 [(tk, GConnect (b, a) (Some true) set)] [(tk', GConnect (a, b) None set')] [] [] 0 f) bs = Some w →
       quiet w → joined w a b t0 t1 pw → ToKernel tk2 (GError cn) ∉ wd_got0 w ++ wd_got1 w).
Proof.
  intros H.
  assert ((λ w, (wd_got0 w, wd_got1 w, wd_down0 w, wd_down1 w)) <$> wrun detected_world [true; false; false; true; false; false] =
    Some ([ToServer 10 (GStage0 (2, 1) (Some 100) 0 101); ToServer 10 (GStage2 (2, 1) false); Channel 10 2 1 101 (100, 104, 7)],
          [ToServer 10 (GConnect (1, 2) (Some true) 0); ToServer 10 (GStage1 (1, 2) (Some (100, 104, 7)) false 101);
           ToKernel 10 (GError (1, 2)); Channel 20 1 2 101 (100, 104, 7)], [], [])) as Hr by (vm_compute; reflexivity).
  destruct (wrun detected_world [true; false; false; true; false; false]) as [w|] eqn:E; [|done].
  cbn [fmap option_fmap option_map] in Hr. injection Hr as G0 G1 D0 D1. unfold detected_world in E.
  refine (H (wanting 2 1 10 7) (wanting 1 2 20 7) 2 1 10 20 7 10 10 0 0 100 _ w 10 (1, 2) eq_refl eq_refl _ _ _ E _ _ _).
  - clear. lia.
  - apply wanting_ready.
  - apply wanting_ready.
  - exact (conj D0 D1).
  - exists 101, (100, 104, 7). rewrite G0, G1. clear. repeat split; reflexivity.
  - rewrite G0, G1. apply elem_of_list_lookup_2 with 5%nat. reflexivity.
Qed.
(** What is shown to hold: no error comes with a request that is accepted and not crossed by another. *)
Theorem C151_partial c0 c1 a b t0 t1 pw tk set n f bs w tk' cn :
  cl_cid c0 = a → cl_cid c1 = b → ready c0 b t0 pw → ready c1 a t1 pw →
  (∀ k, cl_kems c1 !! a = Some k → km_ctor k = None) →
  wrun (mk_world c0 c1 [(tk, GConnect (b, a) (Some true) set)] [] [] [] n f) bs = Some w →
  quiet w → ToKernel tk' (GError cn) ∉ wd_got0 w ++ wd_got1 w.
Proof.
  intros H0 H1 R0 R1 Hk Hr Hq. destruct (C148_accepted _ _ _ _ _ _ _ _ _ _ _ _ _ _ H0 H1 R0 R1 Hk Hr) as (_ & _ & H).
  destruct (H Hq) as [Hs _]. by apply Hs.
Qed.
Print Assumptions C151_refuted.
Print Assumptions C151_partial.

(** C152: the keys of a channel rest on a number this client has drawn since it last gave the user a channel with that
    peer: no signal, sent again, brings back the keys of an earlier connection. *)
Theorem C152_fresh cid peers es c tr i e os t this p id k :
  crun (client_init cid peers) es = Some (c, tr) → tr !! i = Some (e, os) → Channel t this p id k ∈ os →
  match e with
  | Signal _ _ _ (GStage1 _ _ _ _) => k.1.1 ∈ drawn p (take i tr)
  | Signal _ _ _ (GStage2 _ _) => k.1.2 ∈ drawn p (take i tr)
  | _ => False
  end.
Proof.
  intros Hr Hi Hin. destruct (crun_at _ _ _ _ _ _ _ Hr Hi) as (c1 & c2 & H1 & H2 & _ & _).
  pose proof (channel_inv _ _ _ _ _ _ _ _ _ H2 Hin) as Hch.
  destruct Hch as (_ & _ & _ & _ & _ & _ & _ & tk & r & f & m & cn & _ & Hm & _ & _ & _ & He).
  destruct He as [(j & -> & Hc & _)|(-> & Hc)]; apply (shares_drawn _ _ _ _ _ _ H1 _ _ Hm); by rewrite Hc.
Qed.
Example C152_example :
  (λ x, (drawn 2 (take 2 x.2), drawn 2 (take 3 x.2), drawn 2 (take 7 x.2), snd <$> last x.2)) <$>
    crun (client_init 1 ∅) (accepted 10 50 51 60 ++ [UDisconnect (1, 2) 11 None; Signal 11 0 0 (GDisconnect (1, 2) None true);
                             UConnect (1, 2) 12 0 None None; Signal 10 0 0 (GStage2 (2, 1) true)])
  = Some ([], [51], [], Some []).
Proof. vm_compute. reflexivity. Qed.
Print Assumptions C152_fresh.

(** C153: what the user asks about a peer is passed to the server or answered, under the ticket of the request.  False: a
    request to disconnect that names another connection than the latest vanishes. *)
Definition request (e : cevent) : option (N * csig) :=
  match e with
  | UConnect cn tk set _ resp => Some (tk, GConnect cn resp set)
  | UDisconnect cn tk token => Some (tk, GDisconnect cn token false)
  | UPass tk s => Some (tk, s)
  | _ => None
  end.
Theorem C153_refuted :
  ¬ (∀ cid peers es c tr e tk s c' os,
       crun (client_init cid peers) es = Some (c, tr) → on_event c e = Some (c', os) → request e = Some (tk, s) →
       ∃ s', os = [ToServer tk s'] ∨ os = [ToKernel tk s']).
Proof.
  intros H.
  destruct (run_of (client_init 1 ∅) (asked 10 50 51 60 ++ [UDisconnect (1, 2) 11 (Some 59)])
    (snd (default (client_init 1 ∅, []) (crun (client_init 1 ∅) (asked 10 50 51 60 ++ [UDisconnect (1, 2) 11 (Some 59)]))))) as [c Hr];
    [vm_compute; reflexivity|].
  destruct (crun_at _ _ _ _ 3 (UDisconnect (1, 2) 11 (Some 59)) [] Hr) as (c1 & c2 & H1 & H2 & _ & _); [vm_compute; reflexivity|].
  clear Hr. destruct (H _ _ _ _ _ _ 11 (GDisconnect (1, 2) (Some 59) false) _ _ H1 H2 eq_refl) as (s' & [Hs|Hs]); discriminate Hs.
Qed.
(** What holds: it is passed on as it is, or, when there is no connection to end, the user is told so; except in that case. *)
Theorem C153_partial cid peers es c tr e tk s c' os :
  crun (client_init cid peers) es = Some (c, tr) → on_event c e = Some (c', os) → request e = Some (tk, s) →
  os = [ToServer tk s] ∨
  (∃ cn token, e = UDisconnect cn tk token ∧ current cid cn.2 tr = None ∧ os = [ToKernel tk (GDisconnect cn token true)]) ∨
  (∃ cn t id k, e = UDisconnect cn tk (Some t) ∧ latest cn.2 tr = Some (id, k) ∧ t ≠ id ∧ os = [] ∧ c' = c).
Proof.
  intros Hr He Hq. destruct e as [cn u set pw resp|cn u token| | | | |u r]; cbn in Hq; try discriminate Hq; injection Hq as <- <-.
  - left. cbn in He. by injection He as <- <-.
  - cbn in He. destruct (cl_links c !! cn.2) as [v|] eqn:El.
    + destruct (latest_keys _ _ cn.2 _ _ _ Hr) as [L1 _]. specialize (L1 _ El). destruct token as [t|].
      * destruct (N.eqb_spec (vl_id v) t) as [E|E]; cbn in He; injection He as <- <-.
        -- by left.
        -- right; right. by exists cn, t, (vl_id v), (vl_key v).
      * injection He as <- <-. by left.
    + right; left. injection He as <- <-. exists cn, token. split; [done|]. split; [|done].
      destruct (current cid cn.2 tr) as [[id k]|] eqn:Ec; [|done].
      destruct (current_live _ _ cn.2 _ _ _ Hr) as [_ Hl]. destruct (Hl _ _ Ec) as [n Hn]. congruence.
  - left. cbn in He. by injection He as <- <-.
Qed.
Example C153_example :
  (λ x, snd <$> last x.2) <$> crun (client_init 1 ∅) (asked 10 50 51 60 ++ [UDisconnect (1, 2) 11 (Some 60)])
  = Some (Some [ToServer 11 (GDisconnect (1, 2) (Some 60) false)]).
Proof. vm_compute. reflexivity. Qed.
Print Assumptions C153_refuted.
Print Assumptions C153_partial.
