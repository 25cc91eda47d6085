(** C175-C177: a service run for each client of a server. *)
From stdpp Require Import prelude gmap.
From Verif Require Import InternalService_Model.
Local Open Scope N_scope.

Definition client_of (e : sevent) : N :=
  match e with Connects c | Arrives c _ | Reads c | Writes c _ | Forwards c | ServiceReturns c | ChannelEnds c => c end.
Definition ends (e : sevent) : bool := match e with ServiceReturns _ | ChannelEnds _ => true | _ => false end.
(** client [c] is served *)
Definition served (n : snode) (c : N) : Prop := nd_on n = true ∧ ∃ s, nd_services n !! c = Some s ∧ sv_on s = true.

(** C175: what one client does, or its service, leaves the other clients served.  False: when any client leaves, or its service returns, the whole server is
    shut down. *)
Theorem C175_refuted :
  ¬ (∀ es e c, served (srun snode_init es) c → client_of e ≠ c → served (srun snode_init (es ++ [e])) c).
Proof.
  intros H. destruct (H [Connects 1; Connects 2; Arrives 2 7] (ChannelEnds 1) 2) as [Hn _]; [|done|by vm_compute in Hn].
  split; [by vm_compute|]. eexists. split; [by vm_compute|done].
Qed.
(** nor can anyone connect again *)
Theorem C175_refuted_for_good es es' c e :
  served (srun snode_init es) c → client_of e = c → ends e = true → nd_on (srun snode_init (es ++ [e] ++ es')) = false.
Proof.
  intros (Hn & s & Hs & Ho) He Hend. unfold srun in *. rewrite !foldl_app. set (n := foldl sstep snode_init es) in *.
  assert (nd_on (foldl sstep n [e]) = false) as H0.
  { destruct e; try done; cbn in *; subst; unfold service_ends; rewrite Hs, Hn, Ho; done. }
  revert H0. generalize (foldl sstep n [e]). induction es' as [|f es' IH]; intros n' H0; [done|]. cbn. apply IH.
  destruct f as [d|d x|d|d x|d|d|d]; cbn [sstep]; unfold on_service, service_ends; rewrite ?H0; cbn; try done; by destruct (nd_services n' !! d).
Qed.
(** What holds: what is done for one client leaves the others as they are, as long as no service or channel ends. *)
Theorem C175_partial n e c : client_of e ≠ c → ends e = false →
  nd_services (sstep n e) !! c = nd_services n !! c ∧ nd_on (sstep n e) = nd_on n.
Proof.
  intros Hc He. destruct e as [d|d x|d|d x|d|d|d]; cbn in Hc, He; try done; cbn [sstep]; unfold on_service.
  1: { destruct (nd_on n) eqn:En; [|done]. destruct (nd_services n !! d); [done|]. cbn. by rewrite lookup_insert_ne. }
  all: destruct (nd_services n !! d) as [s|]; [|done]; destruct (nd_on n && sv_on s); [|done]; cbn; by rewrite lookup_insert_ne.
Qed.
Example C175_example :
  served (srun snode_init [Connects 1; Connects 2; Arrives 1 7; Writes 1 8; Forwards 1]) 2.
Proof. split; [by vm_compute|]. eexists. split; [by vm_compute|done]. Qed.

(** what holds of each client *)
Definition fine (s : service) : Prop :=
  sv_arrived s = sv_read s ++ sv_in s ∧ sv_sent s `prefix_of` sv_written s ∧ (sv_on s = true → sv_written s = sv_sent s ++ sv_queue s).
Lemma fine_stop s : fine s → fine (sv_stop s).
Proof. intros (H1 & H2 & H3). by repeat split. Qed.
Lemma fine_step n e : map_Forall (λ _, fine) (nd_services n) → map_Forall (λ _, fine) (nd_services (sstep n e)).
Proof.
  intros H. assert (∀ c f, (∀ s, sv_on s = true → fine s → fine (f s)) → map_Forall (λ _, fine) (nd_services (on_service n c f))) as Hon.
  { intros c f Hf. unfold on_service. destruct (nd_services n !! c) as [s|] eqn:Es; [|done]. destruct (nd_on n); [|done]. destruct (sv_on s) eqn:Eo; [|done].
    cbn. apply map_Forall_insert_2; [|done]. apply Hf; [done|]. by apply (H c). }
  assert (∀ c, map_Forall (λ _, fine) (nd_services (service_ends n c))) as Hend.
  { intros c. unfold service_ends. destruct (nd_services n !! c) as [s|]; [|done]. destruct (nd_on n && sv_on s); [|done]. cbn.
    intros i s'. rewrite lookup_fmap. destruct (nd_services n !! i) as [s0|] eqn:E; [|done]. cbn. intros [= <-]. apply fine_stop. by apply (H i). }
  destruct e as [d|d x|d|d x|d|d|d]; cbn [sstep]; try (by apply Hend); try apply Hon.
  - destruct (nd_on n); [|done]. destruct (nd_services n !! d); [done|]. cbn. apply map_Forall_insert_2; [|done]. by repeat split.
  - intros s Ho (H1 & H2 & H3). repeat split; cbn; [by rewrite H1, app_assoc|done|by intros _; apply H3].
  - intros s Ho (H1 & H2 & H3). destruct (sv_in s) as [|x r] eqn:Ei; [unfold fine; by rewrite Ei|]. repeat split; cbn; [by rewrite H1, <- app_assoc|done|by intros _; apply H3].
  - intros s Ho (H1 & H2 & H3). repeat split; cbn; [done|by apply prefix_app_r|intros _; by rewrite H3, app_assoc].
  - intros s Ho (H1 & H2 & H3). specialize (H3 Ho). destruct (sv_queue s) as [|x q] eqn:Eq; [unfold fine; by rewrite Eq|].
    repeat split; cbn; [done|rewrite H3; exists q; by rewrite <- app_assoc|intros _; by rewrite H3, <- app_assoc].
Qed.
Lemma fine_run es c s : nd_services (srun snode_init es) !! c = Some s → fine s.
Proof.
  intros Hs. assert (map_Forall (λ _, fine) (nd_services (srun snode_init es))) as H; [|by apply (H c)].
  clear Hs. unfold srun. assert (map_Forall (λ _, fine) (nd_services snode_init)) as H0 by apply map_Forall_empty.
  revert H0. generalize snode_init. induction es as [|e es IH]; intros n H0; [done|]. cbn. apply IH. by apply fine_step.
Qed.

(** C176: what a service has written before it returns reaches the client.  False: what is queued then is thrown away. *)
Theorem C176_refuted :
  ¬ (∀ es c s, nd_services (srun snode_init (es ++ [ServiceReturns c])) !! c = Some s → sv_sent s = sv_written s).
Proof. intros H. specialize (H [Connects 1; Arrives 1 7; Reads 1; Writes 1 8] 1). vm_compute in H. specialize (H _ eq_refl). discriminate H. Qed.
(** What holds: it does if the queue is empty when the service returns. *)
Theorem C176_partial es c s :
  nd_services (srun snode_init es) !! c = Some s → sv_on s = true → sv_queue s = [] →
  ∃ s', nd_services (srun snode_init (es ++ [ServiceReturns c])) !! c = Some s' ∧ sv_sent s' = sv_written s' ∧ sv_written s' = sv_written s.
Proof.
  intros Hs Ho Hq. destruct (fine_run es c s Hs) as (_ & _ & H3). specialize (H3 Ho). rewrite Hq, app_nil_r in H3.
  unfold srun in *. rewrite foldl_app. set (n := foldl sstep snode_init es) in *. cbn. unfold service_ends. rewrite Hs.
  destruct (nd_on n); cbn [andb].
  - rewrite Ho. cbn. rewrite lookup_fmap, Hs. cbn. eexists. split; [done|]. by cbn.
  - exists s. by rewrite Hs.
Qed.
Example C176_example :
  (λ s, (sv_sent s, sv_written s)) <$> nd_services (srun snode_init [Connects 1; Writes 1 8; Writes 1 9; Forwards 1; Forwards 1; ServiceReturns 1]) !! 1 = Some ([8; 9], [8; 9]).
Proof. by vm_compute. Qed.

(** C177: a service reads what its own client has sent, in order, and its client gets what it wrote, in order: nothing left out, nothing of another client. *)
Theorem C177_own_data es c s :
  nd_services (srun snode_init es) !! c = Some s →
  sv_read s `prefix_of` sv_arrived s ∧ sv_sent s `prefix_of` sv_written s ∧
  (sv_on s = true → sv_arrived s = sv_read s ++ sv_in s ∧ sv_written s = sv_sent s ++ sv_queue s).
Proof.
  intros Hs. destruct (fine_run es c s Hs) as (H1 & H2 & H3). split; [by exists (sv_in s)|]. split; [done|]. intros Ho. split; [done|by apply H3].
Qed.
(** what arrived and what was written is that of this client *)
Definition from_client (c : N) (es : list sevent) : list N := omap (λ e, match e with Arrives d x => if decide (d = c) then Some x else None | _ => None end) es.
Definition by_service (c : N) (es : list sevent) : list N := omap (λ e, match e with Writes d x => if decide (d = c) then Some x else None | _ => None end) es.
Theorem C177_of_this_client es c s :
  nd_services (srun snode_init es) !! c = Some s → sv_arrived s `sublist_of` from_client c es ∧ sv_written s `sublist_of` by_service c es.
Proof.
  revert s. induction es as [|e es IH] using rev_ind; intros s Hs; [by vm_compute in Hs|].
  unfold from_client, by_service in *. rewrite !omap_app. unfold srun in Hs, IH. rewrite foldl_app in Hs. set (n := foldl sstep snode_init es) in *. cbn [foldl] in Hs.
  assert (∀ s0, nd_services n !! c = Some s0 → sv_arrived s = sv_arrived s0 → sv_written s = sv_written s0 →
    sv_arrived s `sublist_of` omap (λ e, match e with Arrives d x => if decide (d = c) then Some x else None | _ => None end) es ++
      omap (λ e, match e with Arrives d x => if decide (d = c) then Some x else None | _ => None end) [e] ∧
    sv_written s `sublist_of` omap (λ e, match e with Writes d x => if decide (d = c) then Some x else None | _ => None end) es ++
      omap (λ e, match e with Writes d x => if decide (d = c) then Some x else None | _ => None end) [e]) as Hsame.
  { intros s0 H0 E1 E2. destruct (IH s0 H0) as [I1 I2]. rewrite E1, E2. split; by apply sublist_inserts_r. }
  destruct (decide (client_of e = c)) as [He|He].
  2: { destruct (ends e) eqn:Ee.
    - assert (∃ d, sstep n e = service_ends n d) as [d Ed] by (destruct e; try done; by eexists). rewrite Ed in Hs. unfold service_ends in Hs.
      destruct (nd_services n !! d) as [sd|]; [|by eapply Hsame]. destruct (nd_on n && sv_on sd); [|by eapply Hsame].
      cbn in Hs. rewrite lookup_fmap in Hs. destruct (nd_services n !! c) as [s0|] eqn:E0; [|done]. cbn in Hs. injection Hs as <-. by eapply Hsame.
    - destruct (C175_partial n e c He Ee) as [E _]. rewrite E in Hs. by eapply Hsame. }
  destruct e as [d|d x|d|d x|d|d|d]; cbn in He; subst d; cbn [sstep] in Hs; unfold on_service, service_ends in Hs.
  - destruct (nd_on n); [|by eapply Hsame]. destruct (nd_services n !! c) as [s0|] eqn:E0; [by eapply (Hsame s0); congruence|].
    cbn in Hs. rewrite lookup_insert in Hs. injection Hs as <-. split; apply sublist_nil_l.
  - destruct (nd_services n !! c) as [s0|] eqn:E0; [|by rewrite E0 in Hs]. destruct (nd_on n && sv_on s0); [|by eapply (Hsame s0); congruence].
    cbn in Hs. rewrite lookup_insert in Hs. injection Hs as <-. destruct (IH s0 eq_refl) as [I1 I2]. cbn. rewrite decide_True by done.
    split; [by apply sublist_app|by apply sublist_inserts_r].
  - destruct (nd_services n !! c) as [s0|] eqn:E0; [|by rewrite E0 in Hs]. destruct (nd_on n && sv_on s0); [|by eapply (Hsame s0); congruence].
    cbn in Hs. rewrite lookup_insert in Hs. injection Hs as <-. apply (Hsame s0 eq_refl); by destruct (sv_in s0).
  - destruct (nd_services n !! c) as [s0|] eqn:E0; [|by rewrite E0 in Hs]. destruct (nd_on n && sv_on s0); [|by eapply (Hsame s0); congruence].
    cbn in Hs. rewrite lookup_insert in Hs. injection Hs as <-. destruct (IH s0 eq_refl) as [I1 I2]. cbn. rewrite decide_True by done.
    split; [by apply sublist_inserts_r|by apply sublist_app].
  - destruct (nd_services n !! c) as [s0|] eqn:E0; [|by rewrite E0 in Hs]. destruct (nd_on n && sv_on s0); [|by eapply (Hsame s0); congruence].
    cbn in Hs. rewrite lookup_insert in Hs. injection Hs as <-. apply (Hsame s0 eq_refl); by destruct (sv_queue s0).
  - destruct (nd_services n !! c) as [s0|] eqn:E0; [|by rewrite E0 in Hs]. destruct (nd_on n && sv_on s0); [|by eapply (Hsame s0); congruence].
    cbn in Hs. rewrite lookup_fmap, E0 in Hs. cbn in Hs. injection Hs as <-. by apply (Hsame s0 eq_refl).
  - destruct (nd_services n !! c) as [s0|] eqn:E0; [|by rewrite E0 in Hs]. destruct (nd_on n && sv_on s0); [|by eapply (Hsame s0); congruence].
    cbn in Hs. rewrite lookup_fmap, E0 in Hs. cbn in Hs. injection Hs as <-. by apply (Hsame s0 eq_refl).
Qed.
(** nothing is refused: while a client is served, what it sends is taken and what its service writes is queued *)
Theorem C177_taken n c x s : nd_on n = true → nd_services n !! c = Some s → sv_on s = true →
  (∃ s', nd_services (sstep n (Arrives c x)) !! c = Some s' ∧ sv_arrived s' = sv_arrived s ++ [x] ∧ sv_in s' = sv_in s ++ [x] ∧ sv_on s' = true) ∧
  (∃ s', nd_services (sstep n (Writes c x)) !! c = Some s' ∧ sv_written s' = sv_written s ++ [x] ∧ sv_queue s' = sv_queue s ++ [x] ∧ sv_on s' = true).
Proof.
  intros Hn Hs Ho. cbn [sstep]. unfold on_service. rewrite Hs, Hn, Ho. cbn. rewrite !lookup_insert. split; by eexists.
Qed.
(** and when the forwarding task has had its turns, all that was written was sent *)
Theorem C177_drained es c s : served (srun snode_init es) c → nd_services (srun snode_init es) !! c = Some s →
  ∃ s', nd_services (srun snode_init (es ++ replicate (length (sv_queue s)) (Forwards c))) !! c = Some s' ∧ sv_sent s' = sv_written s ∧ sv_queue s' = [].
Proof.
  intros (Hn & s0 & Hs0 & Ho) Hs. rewrite Hs in Hs0. injection Hs0 as <-. destruct (fine_run es c s Hs) as (_ & _ & H3). specialize (H3 Ho).
  unfold srun in *. rewrite foldl_app. revert Hn Hs. generalize (foldl sstep snode_init es). intros n Hn Hs.
  remember (sv_queue s) as q eqn:Eq. revert n s Hn Hs Ho H3 Eq. induction q as [|x q IH]; intros n s Hn Hs Ho H3 Eq.
  - cbn. exists s. by rewrite H3, app_nil_r.
  - cbn [length replicate foldl]. set (s1 := mk_service (sv_arrived s) (sv_in s) (sv_read s) (sv_written s) q (sv_sent s ++ [x]) true).
    assert (sstep n (Forwards c) = mk_snode (nd_on n) (<[c := s1]> (nd_services n))) as E.
    { cbn [sstep]. unfold on_service. rewrite Hs, Hn, Ho. cbn [andb]. by rewrite <- Eq. }
    rewrite E. apply (IH _ s1); [done|cbn; by rewrite lookup_insert|done|cbn; by rewrite H3, <- app_assoc|done].
Qed.
Example C177_example :
  (λ s, (sv_read s, sv_in s, sv_sent s, sv_queue s)) <$>
    nd_services (srun snode_init [Connects 1; Connects 2; Arrives 1 7; Arrives 2 3; Arrives 1 8; Reads 1; Writes 1 70; Writes 2 30; Writes 1 71; Forwards 1]) !! 1
  = Some ([7], [8], [70], [71]).
Proof. by vm_compute. Qed.
Print Assumptions C175_refuted.
Print Assumptions C175_refuted_for_good.
Print Assumptions C175_partial.
Print Assumptions C176_refuted.
Print Assumptions C176_partial.
Print Assumptions C177_own_data.
Print Assumptions C177_of_this_client.
Print Assumptions C177_taken.
Print Assumptions C177_drained.
