(** C68-C78: registering with a peer, connecting to it, and parting, by way of the server. *)
From Coq Require Import ZifyBool ZifyNat ZifyN.
From stdpp Require Import prelude gmap.
From Verif Require Import Postings_Model Postings_Proofs PeerServer_Model PeerServer_Spec PeerServer_Proofs.
Local Open Scope N_scope.

(** what a run that does not panic ends in and does *)
Definition ends (r : option (pserver * list peffect)) : pserver := match r with Some (s, _) => s | None => pserver_init ∅ end.
Definition does (r : option (pserver * list peffect)) : list peffect := match r with Some (_, x) => x | None => [] end.
Definition three : gset N := {[1; 2; 3]}.
Definition prun0 (es : list pevent) := prun (pserver_init three) es.
Lemma prun0_eq es : prun0 es = Some (ends (prun0 es), does (prun0 es)).
Proof. unfold prun0. by destruct (sound_run es _ (sound_init three)) as (s & x & -> & _). Qed.
Lemma reachable_sound acc es s x : prun (pserver_init acc) es = Some (s, x) → sound s.
Proof. intros E. destruct (sound_run es _ (sound_init acc)) as (s' & x' & E' & H). rewrite E in E'. by injection E' as <- <-. Qed.
Lemma step0_eq es e : pstep (ends (prun0 es)) e = Some (ends (pstep (ends (prun0 es)) e), does (pstep (ends (prun0 es)) e)).
Proof. destruct (sound_step (ends (prun0 es)) e) as (s & x & -> & _); [|done]. eapply reachable_sound, prun0_eq. Qed.

Definition all_here : list pevent := [PConnect 1; PConnect 2; PConnect 3].
(** 1 and 2 register with each other as they should *)
Definition registered : list pevent :=
  all_here ++ [PReq 1 1 5 (QRegister (1, 2) None); PReq 2 2 5 (QRegister (2, 1) (Some true))].
(** 1 and 2 connect as they should *)
Definition connected : list pevent :=
  all_here ++ [PReq 1 1 5 (QConnect (1, 2) None); PReq 2 2 5 (QConnect (2, 1) (Some true))].

Lemma peers_dec_true es : bool_decide ((1, 2) ∈ pv_peers (ends (prun0 es))) = true → peers (ends (prun0 es)) 1 2.
Proof. intros H. by apply bool_decide_eq_true in H. Qed.

Ltac in_list := repeat first [apply elem_of_list_here | apply elem_of_list_further].

(** *** C68 *)
(** The claim is false: anyone may name the two. *)
Theorem C68_refuted :
  ∃ acc es s x c h tk q s' x' a b,
    prun (pserver_init acc) es = Some (s, x) ∧ Forall truthful es ∧ pstep s (PReq c h tk q) = Some (s', x') ∧
    peers s a b ∧ ¬ peers s' a b ∧ h = c ∧ c ≠ a ∧ c ≠ b.
Proof.
  exists three, registered, (ends (prun0 registered)), (does (prun0 registered)), 3, 3, 9, (QDeregister (1, 2)).
  eexists _, _, 1, 2. split; [apply prun0_eq|]. split; [by repeat constructor|]. split; [apply step0_eq|].
  split; [|split; [|done]]; unfold peers.
  - apply (bool_decide_unpack _). by vm_compute.
  - apply (bool_decide_unpack _). by vm_compute.
Qed.

(** What holds: the registration of two accounts ends only by a request to deregister
    that names them, so if clients name themselves, by a request of one of the two.
    Missing: clients that name others. *)
Theorem C68_partial acc es s x e s' x' a b :
  prun (pserver_init acc) es = Some (s, x) → truthful e → pstep s e = Some (s', x') → peers s a b → ¬ peers s' a b →
  ∃ tk, e = PReq a a tk (QDeregister (a, b)) ∨ e = PReq b b tk (QDeregister (b, a)).
Proof.
  intros E Ht Hs Hp Hn. pose proof (reachable_sound _ _ _ _ E) as HS. unfold peers in *.
  assert (HR : ∀ s0 c cn r tk h t s1 y rep, sound s0 → pv_peers s0 = pv_peers s → answer_register s0 c cn r tk h t = Some (s1, y, rep) → (a, b) ∈ pv_peers s1).
  { clear -Hp. intros s0 c cn r tk h t s1 y rep HS Hp0. unfold answer_register.
    destruct (response_spec s0 c t tk (SRegister cn (Some r)) (λ s1, if r then register_p2p s1 h t else (s1, [])) HS) as [[_ ->]|(p & l & _ & _ & _ & _ & ->)]; [intros [= <- _ _]; by rewrite Hp0|].
    destruct r; [|intros [= <- _ _]; cbn; by rewrite Hp0]. unfold register_p2p. repeat case_match; intros [= <- _ _]; cbn; rewrite ?Hp0; set_solver. }
  assert (HC : ∀ s0 c cn r tk h t s1 y rep, sound s0 → pv_peers s0 = pv_peers s → answer_connect s0 c cn r tk h t = Some (s1, y, rep) → (a, b) ∈ pv_peers s1).
  { clear -Hp. intros s0 c cn r tk h t s1 y rep HS Hp0. unfold answer_connect. match goal with |- context [route_response _ _ _ _ _ ?f] => set (fin := f) end.
    destruct (response_spec s0 c t tk (SConnect cn (Some r)) fin HS) as [[_ ->]|(p & l & _ & _ & _ & _ & ->)]; [intros [= <- _ _]; by rewrite Hp0|].
    unfold fin. destruct (c =? t); intros [= <- _ _]; cbn; by rewrite Hp0. }
  assert (HO : ∀ c o t tk sg, pv_peers (route_signal s c o t tk sg).1 = pv_peers s).
  { intros c o t tk sg. unfold route_signal. repeat case_match; done. }
  destruct e as [c h tk q|c t y|c|c|d|k]; cbn [pstep] in Hs.
  2-5: exfalso; repeat case_match; simplify_eq; done.
  2: { exfalso. destruct (ly_expire (pv_layer s) k). simplify_eq. done. }
  case_bool_decide; [|simplify_eq; done]. destruct Ht as [-> Ht].
  destruct q as [[y t] r|[y t] r|[y t]|[y t]|z|[y t] z]; cbn [phandle] in Hs; cbn in Ht; subst.
  - exfalso. destruct r as [r|].
    + destruct (answer_register s c (c, t) r tk c t) as [[[s1 y] rep]|] eqn:Ea; [|done]. injection Hs as <- <-. apply Hn. by apply (HR _ _ _ _ _ _ _ _ _ _ HS eq_refl Ea).
    + destruct (ly_find (pv_layer s) t (seeks_register c)) as [tk'|].
      * destruct (answer_register _ c (c, t) true tk' c t) as [[[s1 y] rep]|] eqn:Ea; [|done]. injection Hs as <- <-. apply Hn. refine (HR _ _ _ _ _ _ _ _ _ _ _ _ Ea); [by apply sound_mapped|done].
      * injection Hs as Hs. apply Hn. replace s' with (route_signal s c c t tk (SRegister (c, t) None)).1 by (by rewrite Hs). by rewrite HO.
  - exfalso. destruct r as [r|].
    + destruct (answer_connect s c (c, t) r tk c t) as [[[s1 y] rep]|] eqn:Ea; [|done]. injection Hs as <- <-. apply Hn. by apply (HC _ _ _ _ _ _ _ _ _ _ HS eq_refl Ea).
    + destruct (ly_find (pv_layer s) t (seeks_connect c)) as [tk'|].
      * destruct (answer_connect _ c (c, t) true tk' c t) as [[[s1 y] rep]|] eqn:Ea; [|done]. injection Hs as <- <-. apply Hn. refine (HC _ _ _ _ _ _ _ _ _ _ _ _ Ea); [by apply sound_mapped|done].
      * injection Hs as Hs. apply Hn. replace s' with (route_signal s c c t tk (SConnect (c, t) None)).1 by (by rewrite Hs). by rewrite HO.
  - destruct (ly_find (pv_layer s) t (seeks_dereg c)); [injection Hs as <- <-; done|].
    destruct (deregister_p2p s c t) as [s1|] eqn:Ed; [|injection Hs as <- <-; done]. injection Hs as <- _. cbn in Hn.
    unfold deregister_p2p in Ed. case_bool_decide; [|done]. injection Ed as <-. cbn in Hn.
    destruct (decide ((a, b) = (c, t) ∨ (a, b) = (t, c))) as [[[= -> ->]|[= -> ->]]|Hd]; [by eauto|by eauto|]. exfalso. apply Hn. set_solver.
  - exfalso. apply Hn. revert Hs. destruct (ly_purge _ c _) as [[l1 o1]|]; [|done]. destruct (ly_purge l1 t _) as [[l2 o2]|]; [|done]. cbv zeta.
    repeat case_match; intros [= <- <-]; done.
  - injection Hs as <- <-. done.
  - exfalso. repeat case_match; simplify_eq; done.
Qed.

(** *** C69 *)
Theorem C69_refuted :
  ∃ acc es s x c h tk q s' x' l a,
    prun (pserver_init acc) es = Some (s, x) ∧ Forall truthful es ∧ pstep s (PReq c h tk q) = Some (s', x') ∧
    PSent c tk (SMutuals l) ∈ x' ∧ a ∈ l ∧ h = c ∧ ¬ peers s c a.
Proof.
  exists three, registered, (ends (prun0 registered)), (does (prun0 registered)), 3, 3, 9, (QMutuals 1).
  eexists _, _, [2], 2. split; [apply prun0_eq|]. split; [by repeat constructor|]. split; [apply step0_eq|]. split_and!; try done.
  - assert (Hd : does (pstep (ends (prun0 registered)) (PReq 3 3 9 (QMutuals 1))) = [PSent 3 9 (SMutuals [2])]) by (by vm_compute). rewrite Hd. by apply elem_of_list_singleton.
  - by apply elem_of_list_singleton.
Qed.
(** What holds: a client that asks for itself gets its peers, all of them and no others.
    Missing: a client that asks for another. *)
Theorem C69_partial acc es s x c h tk q s' x' l :
  prun (pserver_init acc) es = Some (s, x) → truthful (PReq c h tk q) → pstep s (PReq c h tk q) = Some (s', x') →
  PSent c tk (SMutuals l) ∈ x' → ∀ a, a ∈ l ↔ peers s c a.
Proof.
  intros E [-> Ht] Hs Hin a. pose proof (reachable_sound _ _ _ _ E) as HS. unfold peers. cbn [pstep] in Hs.
  case_bool_decide; [|injection Hs as <- <-; by apply elem_of_nil in Hin].
  assert (HR : ∀ s0 cn r tk t s1 y rep, sound s0 → answer_register s0 c cn r tk c t = Some (s1, y, rep) → PSent c tk (SMutuals l) ∉ y ++ rep ∧ ∀ tk', PSent c tk' (SMutuals l) ∉ y).
  { clear. intros s0 cn r tk t s1 y rep HS. unfold answer_register.
    destruct (response_spec s0 c t tk (SRegister cn (Some r)) (λ s1, if r then register_p2p s1 c t else (s1, [])) HS) as [[_ ->]|(p & l' & _ & _ & _ & _ & ->)]; [intros [= <- <- <-]; set_solver|].
    destruct r; [|intros [= <- <- <-]; set_solver]. unfold register_p2p. repeat case_match; intros [= <- <- <-]; simplify_eq; set_solver. }
  assert (HC : ∀ s0 cn r tk t s1 y rep, sound s0 → answer_connect s0 c cn r tk c t = Some (s1, y, rep) → PSent c tk (SMutuals l) ∉ y ++ rep ∧ ∀ tk', PSent c tk' (SMutuals l) ∉ y).
  { clear. intros s0 cn r tk t s1 y rep HS. unfold answer_connect. match goal with |- context [route_response _ _ _ _ _ ?f] => set (fin := f) end.
    destruct (response_spec s0 c t tk (SConnect cn (Some r)) fin HS) as [[_ ->]|(p & l' & _ & _ & _ & _ & ->)]; [intros [= <- <- <-]; set_solver|].
    unfold fin. destruct (c =? t); intros [= <- <- <-]; set_solver. }
  destruct q as [[y t] r|[y t] r|[y t]|[y t]|z|[y t] z]; cbn [phandle] in Hs; cbn in Ht; subst.
  - exfalso. destruct r as [r|].
    + destruct (answer_register s c (c, t) r tk c t) as [[[s1 y] rep]|] eqn:Ea; [|done]. injection Hs as <- <-. by apply HR in Ea as [? _].
    + destruct (ly_find (pv_layer s) t (seeks_register c)) as [tk'|].
      * destruct (answer_register _ c (c, t) true tk' c t) as [[[s1 y] rep]|] eqn:Ea; [|done]. injection Hs as <- <-. apply HR in Ea as [_ Ha]; [|by apply sound_mapped]. specialize (Ha tk). set_solver.
      * injection Hs as Hs. unfold route_signal in Hs. repeat case_match; simplify_eq; set_solver.
  - exfalso. destruct r as [r|].
    + destruct (answer_connect s c (c, t) r tk c t) as [[[s1 y] rep]|] eqn:Ea; [|done]. injection Hs as <- <-. by apply HC in Ea as [? _].
    + destruct (ly_find (pv_layer s) t (seeks_connect c)) as [tk'|].
      * destruct (answer_connect _ c (c, t) true tk' c t) as [[[s1 y] rep]|] eqn:Ea; [|done]. injection Hs as <- <-. apply HC in Ea as [_ Ha]; [|by apply sound_mapped]. by specialize (Ha tk).
      * injection Hs as Hs. unfold route_signal in Hs. repeat case_match; simplify_eq; set_solver.
  - exfalso. repeat case_match; simplify_eq; set_solver.
  - exfalso. destruct (ly_purge _ c _) as [[l1 o1]|]; [|done]. destruct (ly_purge l1 t _) as [[l2 o2]|]; [|done]. cbv zeta in Hs. repeat case_match; simplify_eq; set_solver.
  - injection Hs as <- <-. apply elem_of_list_singleton in Hin. injection Hin as ->. rewrite elem_of_elements, elem_of_map. split.
    + intros ([u v] & -> & [H1 H2]%elem_of_filter). cbn in *. by subst.
    + intros Hp. exists (c, a). split; [done|]. by apply elem_of_filter.
  - exfalso. repeat case_match; simplify_eq; set_solver.
Qed.

(** *** C70 *)
(** The claim is false even if every client names itself: who was asked to connect can answer
    as if asked to register. *)
Definition crossed : list pevent := all_here ++ [PReq 1 1 5 (QConnect (1, 2) None); PReq 2 2 5 (QRegister (2, 1) (Some true))].
Theorem C70_refuted :
  ∃ acc es s x a b, prun (pserver_init acc) es = Some (s, x) ∧ Forall truthful es ∧ peers s a b ∧ ¬ wants_register es a b.
Proof.
  exists three, crossed, (ends (prun0 crossed)), (does (prun0 crossed)), 1, 2. split; [apply prun0_eq|]. split; [by repeat constructor|]. split.
  - apply peers_dec_true. by vm_compute.
  - intros (h & tk & x & r & H & _). unfold crossed, all_here in H. cbn in H. repeat (apply elem_of_cons in H as [H|H]; [done|]). by apply elem_of_nil in H.
Qed.
(** and by a client that puts another's account in the header: without any ticket *)
Definition impersonated : list pevent := all_here ++ [PReq 1 1 5 (QRegister (1, 2) None); PReq 3 2 6 (QRegister (2, 1) None)].
Theorem C70_forged_refuted :
  ∃ acc es s x a b, prun (pserver_init acc) es = Some (s, x) ∧ peers s a b ∧ ∀ h tk q, PReq b h tk q ∉ es.
Proof.
  exists three, impersonated, (ends (prun0 impersonated)), (does (prun0 impersonated)), 1, 2. split; [apply prun0_eq|]. split.
  - apply peers_dec_true. by vm_compute.
  - intros h tk q H. unfold impersonated, all_here in H. cbn in H. repeat (apply elem_of_cons in H as [H|H]; [done|]). by apply elem_of_nil in H.
Qed.
(** What holds: if clients name themselves and answer only requests they were sent, two
    accounts are registered with each other only if both wanted it.
    Missing: the server does not check either. *)
Theorem C70_partial acc es s x a b :
  prun (pserver_init acc) es = Some (s, x) → Forall truthful es → polite (pserver_init acc) [] es →
  peers s a b → wants_register es a b ∧ wants_register es b a.
Proof. intros E Ht Hp. pose proof (honest_run _ _ _ _ _ _ (honest_init acc) Ht Hp E) as HH. apply (ho_peers _ _ _ HH). Qed.

(** *** C71 *)
(** The claim is false: whoever names the asked account as its own is joined instead of it,
    and what the first account sends goes to them. *)
Definition hijacked : list pevent := all_here ++ [PReq 1 1 5 (QConnect (1, 2) None); PReq 3 3 6 (QConnect (2, 1) None); PProxy 1 2 77].
Theorem C71_refuted :
  ∃ acc es s x c t y to s' x', prun (pserver_init acc) es = Some (s, x) ∧
    pstep s (PProxy c t y) = Some (s', x') ∧ PForward to y ∈ x' ∧ to ≠ t.
Proof.
  exists three, hijacked, (ends (prun0 hijacked)), (does (prun0 hijacked)), 1, 2, 78, 3. eexists _, _.
  split; [apply prun0_eq|]. split; [apply step0_eq|]. split; [|done].
  assert (Hd : does (pstep (ends (prun0 hijacked)) (PProxy 1 2 78)) = [PForward 3 78]) by (by vm_compute). rewrite Hd. by apply elem_of_list_singleton.
Qed.
(** What holds: if clients name themselves and answer only what they were asked, what an
    account sends to a peer goes to that peer.  Missing: clients that name others. *)
Theorem C71_partial acc es s x c t y to s' x' :
  prun (pserver_init acc) es = Some (s, x) → Forall truthful es → polite (pserver_init acc) [] es →
  pstep s (PProxy c t y) = Some (s', x') → PForward to y ∈ x' → to = t.
Proof.
  intros E Ht Hp Hs Hin. pose proof (honest_run _ _ _ _ _ _ (honest_init acc) Ht Hp E) as HH. cbn [pstep] in Hs.
  case_bool_decide; [|injection Hs as <- <-; by apply elem_of_nil in Hin]. injection Hs as <- <-.
  destruct (pv_vconns s !! (c, t)) as [v|] eqn:Ev; [|by apply elem_of_nil in Hin]. apply elem_of_list_singleton in Hin. injection Hin as ->.
  by destruct (ho_vconns _ _ _ HH _ _ _ Ev) as (_ & -> & _).
Qed.

(** *** C72 *)
(** The claim is false: a request that was declined leaves a channel too. *)
Definition declined : list pevent := all_here ++ [PReq 1 1 5 (QConnect (1, 2) None); PReq 2 2 5 (QConnect (2, 1) (Some false))].
Definition agreed (es : list pevent) (a b : N) : Prop := ∃ h tk x r, PReq a h tk (QConnect (x, b) r) ∈ es ∧ r ≠ Some false.
#[local] Instance psig_eq : EqDecision psig.
Proof. solve_decision. Defined.
Definition brings (c : N) (sg : psig) (y : peffect) : bool :=
  match y with PSent c' _ sg' | PMailed c' sg' => bool_decide (c' = c ∧ sg' = sg) | _ => false end.
Lemma got_brings seen c sg : got seen c sg ↔ Exists (λ y, brings c sg y = true) seen.
Proof.
  rewrite Exists_exists. split.
  - intros [[tk Hg]|Hg]; eexists; (split; [exact Hg|by apply bool_decide_eq_true]).
  - intros (y & Hin & Hy). destruct y; try done; apply bool_decide_eq_true in Hy as [-> ->]; [left; eauto|by right].
Qed.
#[local] Instance got_dec seen c sg : Decision (got seen c sg).
Proof. destruct (decide (Exists (λ y, brings c sg y = true) seen)) as [H|H]; [left|right]; by rewrite got_brings. Defined.
#[local] Instance asked_dec seen e : Decision (asked_before seen e).
Proof. destruct e as [c h tk [[x t] [[]|]|[x t] [r|]|cn|cn|a|cn y]| | | | |]; cbn; apply _. Defined.
#[local] Instance polite_dec es s seen : Decision (polite s seen es).
Proof. revert s seen. induction es as [|e es IH]; intros s seen; cbn; [apply _|]. apply and_dec; [apply _|]. destruct (pstep s e) as [[s' x]|]; [apply IH|apply _]. Defined.
Theorem C72_refuted :
  ∃ acc es s x c t y s' x', prun (pserver_init acc) es = Some (s, x) ∧ Forall truthful es ∧ polite (pserver_init acc) [] es ∧
    pstep s (PProxy c t y) = Some (s', x') ∧ PForward t y ∈ x' ∧ ¬ agreed es t c.
Proof.
  exists three, declined, (ends (prun0 declined)), (does (prun0 declined)), 1, 2, 78. eexists _, _.
  split; [apply prun0_eq|]. split; [by repeat constructor|]. split; [apply (bool_decide_unpack _); by vm_compute|]. split; [apply step0_eq|]. split.
  - assert (Hd : does (pstep (ends (prun0 declined)) (PProxy 1 2 78)) = [PForward 2 78]) by (by vm_compute). rewrite Hd. by apply elem_of_list_singleton.
  - intros (h & tk & x & r & H & Hr). unfold declined, all_here in H. cbn in H.
    repeat (apply elem_of_cons in H as [H|H]; [simplify_eq; done|]). by apply elem_of_nil in H.
Qed.
(** What holds: nothing is passed from one account to another unless both have asked or
    answered.  Missing: that the answer was not a refusal. *)
Theorem C72_partial acc es s x c t y to s' x' :
  prun (pserver_init acc) es = Some (s, x) → Forall truthful es → polite (pserver_init acc) [] es →
  pstep s (PProxy c t y) = Some (s', x') → PForward to y ∈ x' → spoke_of_connecting es c t ∧ spoke_of_connecting es t c.
Proof.
  intros E Ht Hp Hs Hin. pose proof (honest_run _ _ _ _ _ _ (honest_init acc) Ht Hp E) as HH. cbn [pstep] in Hs.
  case_bool_decide; [|injection Hs as <- <-; by apply elem_of_nil in Hin]. injection Hs as <- <-.
  destruct (pv_vconns s !! (c, t)) as [v|] eqn:Ev; [|by apply elem_of_nil in Hin].
  by destruct (ho_vconns _ _ _ HH _ _ _ Ev) as (_ & _ & ? & ?).
Qed.

(** *** C73 *)
(** The claim is false: the server marks the connection and uses it all the same. *)
Definition parted : list pevent := connected ++ [PReq 2 2 6 (QDisconnect (2, 1))].
Theorem C73_refuted :
  ∃ acc es s x c t y s' x' tk1 tk2, prun (pserver_init acc) es = Some (s, x) ∧ Forall truthful es ∧ polite (pserver_init acc) [] es ∧
    last es = Some (PReq t t tk1 (QDisconnect (t, c))) ∧ PSent c tk1 (SDisconnect (t, c)) ∈ x ∧ PSent t tk2 (SDisconnect (t, c)) ∈ x ∧
    pstep s (PProxy c t y) = Some (s', x') ∧ PForward t y ∈ x'.
Proof.
  exists three, parted, (ends (prun0 parted)), (does (prun0 parted)), 1, 2, 78. eexists _, _, 6, 6.
  split; [apply prun0_eq|]. split; [by repeat constructor|]. split; [apply (bool_decide_unpack _); by vm_compute|]. split; [done|].
  split; [|split; [|split; [apply step0_eq|]]].
  1-2: assert (Hd : does (prun0 parted) = [PSent 2 5 (SConnect (1, 2) None); PSent 1 5 (SConnect (2, 1) (Some true)); PSent 2 5 SReceived; PSent 1 6 (SDisconnect (2, 1)); PSent 2 6 (SDisconnect (2, 1))]) by (by vm_compute); rewrite Hd; in_list.
  assert (Hd : does (pstep (ends (prun0 parted)) (PProxy 1 2 78)) = [PForward 2 78]) by (by vm_compute). rewrite Hd. by apply elem_of_list_singleton.
Qed.
(** What holds: once either of the two sessions has ended, nothing is passed on.
    Missing: a disconnection without the end of a session. *)
Theorem C73_partial acc es s x c t y s' x' to e :
  prun (pserver_init acc) es = Some (s, x) → Forall truthful es → polite (pserver_init acc) [] es →
  e = PEnd c ∨ e = PEnd t → ∀ s1 x1, pstep s e = Some (s1, x1) → pstep s1 (PProxy c t y) = Some (s', x') → PForward to y ∉ x'.
Proof.
  intros E Ht Hp He s1 x1 H1 Hs Hin. pose proof (honest_run _ _ _ _ _ _ (honest_init acc) Ht Hp E) as HH. cbn [pstep] in Hs.
  case_bool_decide; [|injection Hs as <- <-; by apply elem_of_nil in Hin]. injection Hs as <- <-.
  destruct (pv_vconns s1 !! (c, t)) as [v|] eqn:Ev; [|by apply elem_of_nil in Hin].
  destruct He as [-> | ->]; cbn [pstep] in H1; injection H1 as <- <-; cbn in Ev; apply map_filter_lookup_Some in Ev as [Ev [Hn1 Hn2]]; cbn in *; [done|].
  by destruct (ho_vconns _ _ _ HH _ _ _ Ev) as (_ & ? & _).
Qed.

(** *** C74 *)
(** The claim is false: a deregistration in the other direction in the last hour is taken for a
    simultaneous one, though the two have registered again since. *)
Definition again : list pevent :=
  registered ++ [PReq 2 2 6 (QDeregister (2, 1)); PReq 1 1 7 (QRegister (1, 2) None); PReq 2 2 7 (QRegister (2, 1) (Some true))].
Theorem C74_refuted :
  ∃ acc es s x c t tk s' x', prun (pserver_init acc) es = Some (s, x) ∧ Forall truthful es ∧ polite (pserver_init acc) [] es ∧
    pstep s (PReq c c tk (QDeregister (c, t))) = Some (s', x') ∧ PSent c tk (SDereg (c, t)) ∈ x' ∧ peers s' c t.
Proof.
  exists three, again, (ends (prun0 again)), (does (prun0 again)), 1, 2, 8. eexists _, _.
  split; [apply prun0_eq|]. split; [by repeat constructor|]. split; [apply (bool_decide_unpack _); by vm_compute|]. split; [apply step0_eq|]. split.
  - assert (Hd : does (pstep (ends (prun0 again)) (PReq 1 1 8 (QDeregister (1, 2)))) = [PSent 2 8 (SDereg (2, 1)); PSent 1 8 (SDereg (1, 2))]) by (by vm_compute). rewrite Hd. in_list.
  - unfold peers. apply (bool_decide_unpack _). by vm_compute.
Qed.
(** What holds: if no deregistration by the other is kept, the report is true.
    Missing: the hour after one. *)
Theorem C74_partial acc es s x c t tk s' x' :
  prun (pserver_init acc) es = Some (s, x) → (∀ tk' k, pending s t tk' k → k.1 ≠ SDereg (t, c)) →
  pstep s (PReq c c tk (QDeregister (c, t))) = Some (s', x') → PSent c tk (SDereg (c, t)) ∈ x' →
  peers s c t ∧ ¬ peers s' c t ∧ ¬ peers s' t c.
Proof.
  intros E Hk Hs Hin. pose proof (reachable_sound _ _ _ _ E) as HS. unfold peers. cbn [pstep] in Hs. case_bool_decide; [|injection Hs as <- <-; by apply elem_of_nil in Hin].
  cbn [phandle] in Hs. destruct (ly_find (pv_layer s) t (seeks_dereg c)) as [tk'|] eqn:Ef.
  - exfalso. destruct (find_spec _ _ _ _ Ef) as (p & Hp & Hf). pose proof (so_shape s HS _ _ _ Hp) as Hsh.
    apply (Hk tk' (po_sig p)); [apply pending_at; eauto|]. unfold seeks_dereg in Hf.
    destruct (po_sig p) as [[cn r|cn r|cn|cn|l'|cn z|cn|] to]; cbn in Hf; try done. destruct to; [done|]. cbn in *. destruct cn as [u v]. cbn in *. apply N.eqb_eq in Hf. congruence.
  - destruct (deregister_p2p s c t) as [s1|] eqn:Ed; [|injection Hs as <- <-; by apply elem_of_list_singleton in Hin].
    apply dereg_some in Ed as [Hb ->]. injection Hs as <- _. cbn. clear -Hb. set_solver.
Qed.

(** *** C75 *)
(** The claim is false: a client may answer its own request. *)
Definition self_register : list pevent := all_here ++ [PReq 1 1 5 (QRegister (1, 2) None)].
Definition self_connect : list pevent := all_here ++ [PReq 1 1 5 (QConnect (1, 2) None)].
Theorem C75_refuted :
  ∃ acc es s x c tk q s' x', prun (pserver_init acc) es = Some (s, x) ∧ Forall truthful es ∧ truthful (PReq c c tk q) ∧
    pstep s (PReq c c tk q) = Some (s', x') ∧ PStuck c ∈ x'.
Proof.
  exists three, self_register, (ends (prun0 self_register)), (does (prun0 self_register)), 1, 5, (QRegister (1, 1) (Some true)). eexists _, _.
  split; [apply prun0_eq|]. split; [by repeat constructor|]. split; [done|]. split; [apply step0_eq|].
  assert (Hd : does (pstep (ends (prun0 self_register)) (PReq 1 1 5 (QRegister (1, 1) (Some true)))) = [PSent 1 5 (SRegister (1, 1) (Some true)); PStuck 1; PSent 1 5 SReceived]) by (by vm_compute).
  rewrite Hd. in_list.
Qed.
Theorem C75_connect_refuted :
  ∃ acc es s x c tk q s' x', prun (pserver_init acc) es = Some (s, x) ∧ Forall truthful es ∧ truthful (PReq c c tk q) ∧
    pstep s (PReq c c tk q) = Some (s', x') ∧ PStuck c ∈ x' ∧ ∀ cn r, q ≠ QRegister cn r.
Proof.
  exists three, self_connect, (ends (prun0 self_connect)), (does (prun0 self_connect)), 1, 5, (QConnect (1, 1) (Some true)). eexists _, _.
  split; [apply prun0_eq|]. split; [by repeat constructor|]. split; [done|]. split; [apply step0_eq|]. split; [|done].
  assert (Hd : does (pstep (ends (prun0 self_connect)) (PReq 1 1 5 (QConnect (1, 1) (Some true)))) = [PSent 1 5 (SConnect (1, 1) (Some true)); PStuck 1; PSent 1 5 SReceived]) by (by vm_compute).
  rewrite Hd. in_list.
Qed.
(** What holds: no request makes the server panic, whatever it names; and if clients name
    themselves and answer only what they were asked, it never waits for itself.
    Missing: clients that do not. *)
Theorem C75_partial acc es :
  ∃ s x, prun (pserver_init acc) es = Some (s, x) ∧
    (Forall truthful es → polite (pserver_init acc) [] es → ∀ c, PStuck c ∉ x).
Proof.
  destruct (sound_run es _ (sound_init acc)) as (s & x & E & _). exists s, x. split; [done|]. intros Ht Hp c Hin.
  pose proof (honest_run _ _ _ _ _ _ (honest_init acc) Ht Hp E) as HH. by apply (ho_stuck _ _ _ HH) in Hin.
Qed.

(** *** C76 *)
(** Whoever asks for it and whatever was sent before: after the disconnection of two accounts no
    request to connect one to the other is left, in either direction, and every other request is
    kept as it was. *)
Theorem C76_disconnect_clears acc es s x c h tk a b s' x' :
  prun (pserver_init acc) es = Some (s, x) → c ∈ pv_sessions s → pstep s (PReq c h tk (QDisconnect (a, b))) = Some (s', x') →
  ∀ o t k, pending s' o t k ↔ pending s o t k ∧ ¬ connects a b k.
Proof.
  intros E Hc Hs o t k. pose proof (reachable_sound _ _ _ _ E) as HS. cbn [pstep] in Hs. rewrite bool_decide_true in Hs by done. cbn [phandle] in Hs.
  destruct (purge_spec (pv_layer s) a (between a b) (so_keyed s HS)) as (l1 & os1 & E1 & _ & _ & _ & A1 & _). rewrite E1 in Hs.
  pose proof (sound_purge _ _ _ _ _ HS E1) as S1. destruct (purge_spec l1 b (between a b) (so_keyed _ S1)) as (l2 & os2 & E2 & _ & _ & _ & A2 & _). rewrite E2 in Hs.
  assert (HL : pv_layer s' = l2).
  { cbv zeta in Hs. repeat case_match; simplify_eq; done. }
  rewrite !pending_at, HL. clear Hs.
  assert (HB : ∀ k, between a b k = true ↔ connects a b k).
  { intros [[cn r|cn r|cn|cn|l'|cn z|cn|] to]; unfold between, connects; cbn; split; try (by intros (? & ? & ? & _)); try done.
    - intros Hd%bool_decide_eq_true. eauto.
    - intros (cn' & r' & [= -> ->] & Hd). by apply bool_decide_eq_true. }
  split.
  - intros (p & Hp & Hk). rewrite A2 in Hp. case_bool_decide as Hb2; [done|]. pose proof Hp as Hp1. rewrite A1 in Hp. case_bool_decide as Hb1; [done|]. split; [by eauto|].
    intros Hcon. pose proof (so_shape s HS _ _ _ Hp) as Hsh. rewrite Hk in Hsh. pose proof Hcon as (cn & r & Hcn & Hd).
    destruct k as [sg to]. cbn in Hcn. subst sg. cbn in Hsh. destruct r; [done|]. destruct to; [|done]. destruct Hsh as [Ho _].
    destruct Hd as [-> | ->]; cbn in Ho.
    + apply Hb1. split; [done|]. apply stale_spec. exists p. split; [by subst|]. rewrite Hk. by apply HB.
    + apply Hb2. split; [done|]. apply stale_spec. exists p. split; [by subst|]. rewrite Hk. by apply HB.
  - intros [(p & Hp & Hk) Hn]. exists p. split; [|done]. rewrite A2. rewrite bool_decide_false.
    + rewrite A1. rewrite bool_decide_false; [done|]. intros [-> Ht]. apply stale_spec in Ht as (q & Hq & Hf). assert (q = p) as -> by congruence. apply Hn. rewrite <- Hk. by apply HB.
    + intros [-> Ht]. apply stale_spec in Ht as (q & Hq & Hf). rewrite A1 in Hq. case_bool_decide; [done|]. assert (q = p) as -> by congruence. apply Hn. rewrite <- Hk. by apply HB.
Qed.

(** *** C77 *)
Inductive kind := KRegister | KConnect.
Definition request (k : kind) (c t : N) : preq := match k with KRegister => QRegister (c, t) None | KConnect => QConnect (c, t) None end.
Definition question (k : kind) (c t : N) : psig := match k with KRegister => SRegister (c, t) None | KConnect => SConnect (c, t) None end.
Definition acceptance (k : kind) (c t : N) : psig := match k with KRegister => SRegister (c, t) (Some true) | KConnect => SConnect (c, t) (Some true) end.

Lemma filter_one (t : N) y : addressed_to t y = true → filter (λ z, addressed_to t z = true) [y] = [y].
Proof. intros H. by rewrite filter_cons_True. Qed.

(** what becomes of a request when the other side has one pending *)
Lemma matched s c t tk k tk' :
  sound s → c ≠ t → ly_find (pv_layer s) t (match k with KRegister => seeks_register c | KConnect => seeks_connect c end) = Some tk' →
  ∃ p s' x, at_ (pv_layer s) t tk' = Some p ∧ (po_sig p).1 = question k t c ∧
    phandle s c c tk (request k c t) = Some (s', x) ∧ at_ (pv_layer s') t tk' = None ∧
    x = match k with KRegister => [PSent t tk' (acceptance k c t); PSent c tk (acceptance k t c)] | KConnect => [PSent t tk' (acceptance k c t)] end ∧
    match k with
    | KRegister => c ∈ pv_accounts s → t ∈ pv_accounts s → (c, t) ∈ pv_peers s' ∧ (t, c) ∈ pv_peers s'
    | KConnect => ∃ v w, pv_vconns s' !! (c, t) = Some v ∧ pv_vconns s' !! (t, c) = Some w ∧ vc_dest v = t ∧ vc_dest w = c ∧ vc_active v = true ∧ vc_active w = true
    end.
Proof.
  intros HS Hn Ef. destruct (find_spec _ _ _ _ Ef) as (p & Hp & Hf). pose proof (so_shape s HS _ _ _ Hp) as Hsh. exists p.
  destruct k; cbn [request phandle].
  - rewrite Ef. unfold seeks_register in Hf. destruct (po_sig p) as [[cn [?|]|cn r|cn|cn|l'|cn z|cn|] to] eqn:Es; cbn in Hf; try done. apply N.eqb_eq in Hf.
    destruct to; [|done]. destruct Hsh as [Hs1 Hs2]. destruct cn as [u v]. cbn in Hs1, Hf. subst u v.
    unfold answer_register. set (s0 := with_mapped s (<[(c, tk') := tk]> (pv_mapped s))).
    destruct (response_spec s0 c t tk' (SRegister (c, t) (Some true)) (λ s1, register_p2p s1 c t)) as [[Hno _]|(p' & l & _ & _ & _ & A & HE)]; [by apply sound_mapped|cbn in Hno; congruence|].
    rewrite HE. destruct (register_p2p (with_layer s0 l) c t) as [s2 y] eqn:Er. unfold register_p2p in Er.
    exists s2, [PSent t tk' (acceptance KRegister c t); PSent c tk (acceptance KRegister t c)].
    destruct (N.eqb_spec c t); [done|].
    assert (Hl : at_ l t tk' = None) by (rewrite A, bool_decide_true; done).
    case_bool_decide as Hb; injection Er as <- <-; (split; [done|]); (split; [done|]); (split; [done|]); (split; [done|]); (split; [done|]).
    + intros _ _. cbn. set_solver.
    + intros H1 H2. exfalso. apply Hb. done.
  - rewrite Ef. unfold seeks_connect in Hf. destruct (po_sig p) as [[cn r|cn [?|]|cn|cn|l'|cn z|cn|] to] eqn:Es; cbn in Hf; try done. apply N.eqb_eq in Hf.
    destruct to; [|done]. destruct Hsh as [Hs1 Hs2]. destruct cn as [u v]. cbn in Hs1, Hf. subst u v.
    unfold answer_connect. set (s0 := with_mapped s (<[(c, tk') := tk]> (pv_mapped s))).
    match goal with |- context [route_response _ _ _ _ _ ?f] => set (fin := f) end.
    destruct (response_spec s0 c t tk' (SConnect (c, t) (Some true)) fin) as [[Hno _]|(p' & l & _ & _ & _ & A & HE)]; [by apply sound_mapped|cbn in Hno; congruence|].
    rewrite HE. unfold fin. destruct (N.eqb_spec c t); [done|]. eexists _, _.
    assert (Hl : at_ l t tk' = None) by (rewrite A, bool_decide_true; done).
    split; [done|]. split; [done|]. split; [done|]. split; [done|]. split; [done|]. cbn.
    exists (mk_vconn (c, t) t true), (mk_vconn (t, c) c true). rewrite lookup_insert. rewrite lookup_insert_ne, lookup_insert; [done|]. congruence.
Qed.

(** A request to register with an account or to connect to it reaches that account exactly once:
    as a request, in its session or its mailbox, and then the server keeps it; or as the answer to
    such a request of its own, which is then no longer kept. *)
Theorem C77_reaches_once acc es s x k c t tk :
  prun (pserver_init acc) es = Some (s, x) → c ∈ pv_sessions s → c ≠ t → t ∈ acc →
  ∃ s' x' y, pstep s (PReq c c tk (request k c t)) = Some (s', x') ∧ filter (λ z, addressed_to t z = true) x' = [y] ∧
    ((y = (if bool_decide (t ∈ pv_sessions s) then PSent t tk (question k c t) else PMailed t (question k c t)) ∧
      pending s' c tk (question k c t, Some c)) ∨
     ∃ tk' r, y = PSent t tk' (acceptance k c t) ∧ pending s t tk' (question k t c, r) ∧ ∀ z, ¬ pending s' t tk' z).
Proof.
  intros E Hc Hn Ht. pose proof (reachable_sound _ _ _ _ E) as HS. cbn [pstep]. rewrite bool_decide_true by done.
  assert (Hacc : pv_accounts s = acc).
  { clear -E. assert (H : ∀ s0 e s1 y, pstep s0 e = Some (s1, y) → pv_accounts s1 = pv_accounts s0).
    { clear. intros s0 e s1 y.
      assert (HR : ∀ s0 c t tk sg fin s1 y rep, (∀ s2 s3 z, fin s2 = (s3, z) → pv_accounts s3 = pv_accounts s2) → route_response s0 c t tk sg fin = Some (s1, y, rep) → pv_accounts s1 = pv_accounts s0).
      { clear. intros s0 c t tk sg fin s1 y rep Hf. unfold route_response. destruct (ly_remove _ _ _) as [[l [z|]]|]; [|by intros [= <- _ _]|done].
        cbv zeta. case_bool_decide; [|by intros [= <- _ _]]. destruct (fin (with_layer s0 l)) as [s2 w] eqn:Ef. intros [= <- _ _]. by apply Hf in Ef. }
      assert (HG : ∀ s0 c cn r tk h t s1 y rep, answer_register s0 c cn r tk h t = Some (s1, y, rep) → pv_accounts s1 = pv_accounts s0).
      { clear -HR. intros s0 c cn r tk h t s1 y rep. apply HR. intros s2 s3 z. unfold register_p2p. repeat case_match; by intros [= <- _]. }
      assert (HC : ∀ s0 c cn r tk h t s1 y rep, answer_connect s0 c cn r tk h t = Some (s1, y, rep) → pv_accounts s1 = pv_accounts s0).
      { clear -HR. intros s0 c cn r tk h t s1 y rep. apply HR. intros s2 s3 z. repeat case_match; by intros [= <- _]. }
      assert (HO : ∀ s c o t tk sg, pv_accounts (route_signal s c o t tk sg).1 = pv_accounts s) by (intros; unfold route_signal; repeat case_match; done).
      destruct e as [c h tk q|c t z|c|c|d|k]; cbn [pstep].
      - case_bool_decide; [|by intros [= <- _]]. destruct q as [[u t] [r|]|[u t] [r|]|[u t]|[u t]|z|[u t] z]; cbn [phandle].
        + destruct (answer_register _ _ _ _ _ _ _) as [[[s2 w] rep]|] eqn:Ea; [|done]. intros [= <- _]. by apply HG in Ea.
        + destruct (ly_find _ _ _). * destruct (answer_register _ _ _ _ _ _ _) as [[[s2 w] rep]|] eqn:Ea; [|done]. intros [= <- _]. by apply HG in Ea.
          * intros [= Hs]. replace s1 with (route_signal s0 c h t tk (SRegister (h, t) None)).1 by (by rewrite Hs). apply HO.
        + destruct (answer_connect _ _ _ _ _ _ _) as [[[s2 w] rep]|] eqn:Ea; [|done]. intros [= <- _]. by apply HC in Ea.
        + destruct (ly_find _ _ _). * destruct (answer_connect _ _ _ _ _ _ _) as [[[s2 w] rep]|] eqn:Ea; [|done]. intros [= <- _]. by apply HC in Ea.
          * intros [= Hs]. replace s1 with (route_signal s0 c u t tk (SConnect (u, t) None)).1 by (by rewrite Hs). apply HO.
        + destruct (ly_find _ _ _); [by intros [= <- _]|]. unfold deregister_p2p. case_bool_decide; by intros [= <- _].
        + destruct (ly_purge _ u _) as [[l1 o1]|]; [|done]. destruct (ly_purge l1 t _) as [[l2 o2]|]; [|done]. cbv zeta. repeat case_match; by intros [= <- _].
        + by intros [= <- _].
        + repeat case_match; by intros [= <- _].
      - case_bool_decide; by intros [= <- _].
      - case_bool_decide; by intros [= <- _].
      - by intros [= <- _].
      - by intros [= <- _].
      - destruct (ly_expire _ _). by intros [= <- _]. }
    assert (HH : ∀ es s0 s1 y, prun s0 es = Some (s1, y) → pv_accounts s1 = pv_accounts s0).
    { clear -H. induction es as [|e es IH]; intros s0 s1 y; cbn; [by intros [= <- _]|]. destruct (pstep s0 e) as [[s2 z]|] eqn:E; [|done].
      destruct (prun s2 es) as [[s3 w]|] eqn:E2; [|done]. intros [= <- _]. rewrite (IH _ _ _ E2). by apply (H _ _ _ _ E). }
    by apply HH in E. }
  destruct (ly_find (pv_layer s) t (match k with KRegister => seeks_register c | KConnect => seeks_connect c end)) as [tk'|] eqn:Ef.
  - destruct (matched s c t tk k tk' HS Hn Ef) as (p & s' & x' & Hp & Hq & -> & Hg & -> & _).
    eexists s', _, (PSent t tk' (acceptance k c t)). split; [done|]. split.
    { destruct k.
      - rewrite filter_cons_True by (cbn; apply N.eqb_refl). rewrite filter_cons_False by (cbn; by apply not_true_iff_false, N.eqb_neq). done.
      - apply filter_one, N.eqb_refl. }
    right. exists tk', (po_sig p).2. split; [done|]. split.
    + apply pending_at. exists p. split; [done|]. rewrite <- Hq. by destruct (po_sig p).
    + intros z (p' & Hp' & _)%pending_at. congruence.
  - assert (HQ : phandle s c c tk (request k c t) = Some (route_signal s c c t tk (question k c t))) by (destruct k; cbn [request phandle]; by rewrite Ef).
    rewrite HQ. unfold route_signal. destruct (N.eqb_spec c t); [done|]. rewrite (bool_decide_true (t ∈ pv_accounts s)) by congruence.
    destruct (so_layer s HS c Hc) as [m Hm].
    assert (HP : pending (with_layer s (ly_insert (pv_layer s) c tk timeout (question k c t, Some c))) c tk (question k c t, Some c)).
    { apply pending_at. cbn. rewrite at_insert, bool_decide_true; [by eexists|]. eauto. }
    case_bool_decide; eexists _, _, _; (split; [done|]); (split; [apply filter_one, N.eqb_refl|]); left; done.
Qed.
(** and one to an account that does not exist is refused, and changes nothing *)
Theorem C77_refused acc es s x k c t tk :
  prun (pserver_init acc) es = Some (s, x) → c ∈ pv_sessions s → c = t ∨ t ∉ pv_accounts s →
  pstep s (PReq c c tk (request k c t)) = Some (s, [PSent c tk (SError (c, t))]).
Proof.
  intros E Hc Ht. pose proof (reachable_sound _ _ _ _ E) as HS. cbn [pstep]. rewrite bool_decide_true by done.
  assert (Ef : ly_find (pv_layer s) t (match k with KRegister => seeks_register c | KConnect => seeks_connect c end) = None).
  { destruct (ly_find _ _ _) as [tk'|] eqn:Ef; [|done]. exfalso. destruct (find_spec _ _ _ _ Ef) as (p & Hp & Hf). destruct Ht as [<- |Ht].
    - pose proof (so_shape s HS _ _ _ Hp) as Hsh. destruct k; unfold seeks_register, seeks_connect in Hf;
        destruct (po_sig p) as [[cn [?|]|cn [?|]|cn|cn|l'|cn z|cn|] to]; cbn in Hf; try done; destruct to; try done; destruct Hsh as [_ Hsh]; apply N.eqb_eq in Hf; done.
    - apply Ht, so_known; [done|]. unfold at_ in Hp. destruct (ly_map (pv_layer s) !! t) as [m|] eqn:Em; [|done]. by eapply so_session. }
  assert (HQ : phandle s c c tk (request k c t) = Some (route_signal s c c t tk (question k c t))) by (destruct k; cbn [request phandle]; by rewrite Ef).
  rewrite HQ. unfold route_signal. destruct (N.eqb_spec c t); [done|]. destruct Ht as [Ht|Ht]; [done|]. by rewrite bool_decide_false.
Qed.

(** *** C78 *)
(** Of two accounts that each ask the other, the second is matched with the first: they are
    registered, or joined by a channel each way, and the first is told so under its own ticket. *)
Theorem C78_matched acc es s x k c t tk tk0 r :
  prun (pserver_init acc) es = Some (s, x) → c ∈ pv_sessions s → c ≠ t → pending s t tk0 (question k t c, r) →
  ∃ s' x' tk' r', pstep s (PReq c c tk (request k c t)) = Some (s', x') ∧
    pending s t tk' (question k t c, r') ∧ PSent t tk' (acceptance k c t) ∈ x' ∧
    match k with
    | KRegister => peers s' c t ∧ peers s' t c ∧ PSent c tk (acceptance k t c) ∈ x'
    | KConnect => ∃ v w, pv_vconns s' !! (c, t) = Some v ∧ pv_vconns s' !! (t, c) = Some w ∧ vc_dest v = t ∧ vc_dest w = c ∧ vc_active v = true ∧ vc_active w = true
    end.
Proof.
  intros E Hc Hn (p & Hp & Hk)%pending_at. pose proof (reachable_sound _ _ _ _ E) as HS. cbn [pstep]. rewrite bool_decide_true by done.
  destruct (ly_find (pv_layer s) t (match k with KRegister => seeks_register c | KConnect => seeks_connect c end)) as [tk'|] eqn:Ef.
  - assert (Hkn : c ∈ pv_accounts s ∧ t ∈ pv_accounts s).
    { split; apply so_known; [done|done|done|]. unfold at_ in Hp. destruct (ly_map (pv_layer s) !! t) as [m|] eqn:Em; [|done]. by eapply so_session. }
    destruct (matched s c t tk k tk' HS Hn Ef) as (p' & s' & x' & Hp' & Hq & -> & Hg & -> & Hm).
    eexists s', _, tk', (po_sig p').2. split; [done|]. split.
    { apply pending_at. exists p'. split; [done|]. rewrite <- Hq. by destruct (po_sig p'). }
    destruct k; (split; [set_solver|]); [|done]. destruct (Hm (proj1 Hkn) (proj2 Hkn)). split; [done|]. split; [done|]. set_solver.
  - exfalso. pose proof (find_none _ _ _ _ _ Ef Hp) as Hf. rewrite Hk in Hf. destruct k; cbn in Hf; by rewrite N.eqb_refl in Hf.
Qed.

(** Examples: two accounts register, connect and part as they should. *)
Definition day : list pevent :=
  [PConnect 1; PConnect 2; PReq 1 1 5 (QRegister (1, 2) None); PReq 2 2 5 (QRegister (2, 1) (Some true));
   PReq 1 1 6 (QConnect (1, 2) None); PReq 2 2 7 (QConnect (2, 1) None); PProxy 1 2 77; PProxy 2 1 78;
   PReq 1 1 8 (QRegister (1, 3) None); PReq 1 1 9 (QMutuals 1); PReq 1 1 10 (QDeregister (1, 2)); PEnd 2; PProxy 1 2 79].
Example day_honest : Forall truthful day ∧ polite (pserver_init three) [] day.
Proof. split; [by repeat constructor|]. apply (bool_decide_unpack _). by vm_compute. Qed.
Example day_does : does (prun0 day) =
  [PSent 2 5 (SRegister (1, 2) None); PSent 1 5 (SRegister (2, 1) (Some true)); PSent 2 5 SReceived;
   PSent 2 6 (SConnect (1, 2) None); PSent 1 6 (SConnect (2, 1) (Some true)); PForward 2 77; PForward 1 78;
   PMailed 3 (SRegister (1, 3) None); PSent 1 9 (SMutuals [2]); PSent 2 10 (SDereg (2, 1)); PSent 1 10 (SDereg (1, 2))].
Proof. by vm_compute. Qed.
Example C76_example :
  let es := all_here ++ [PReq 1 1 5 (QConnect (1, 2) None); PReq 1 1 6 (QConnect (1, 3) None); PReq 1 1 7 (QRegister (1, 2) None)] in
  (stale (pv_layer (ends (prun0 es))) 1 (λ _, true), stale (pv_layer (ends (prun0 (es ++ [PReq 2 2 8 (QDisconnect (2, 1))])))) 1 (λ _, true)) = ([7; 5; 6], [7; 6]).
Proof. by vm_compute. Qed.
Example C78_example :
  does (prun0 (all_here ++ [PReq 1 1 5 (QRegister (1, 2) None); PReq 2 2 6 (QRegister (2, 1) None)])) =
  [PSent 2 5 (SRegister (1, 2) None); PSent 1 5 (SRegister (2, 1) (Some true)); PSent 2 6 (SRegister (1, 2) (Some true))].
Proof. by vm_compute. Qed.
Print Assumptions C68_refuted. Print Assumptions C68_partial. Print Assumptions C69_refuted. Print Assumptions C69_partial.
Print Assumptions C70_refuted. Print Assumptions C70_forged_refuted. Print Assumptions C70_partial.
Print Assumptions C71_refuted. Print Assumptions C71_partial. Print Assumptions C72_refuted. Print Assumptions C72_partial.
Print Assumptions C73_refuted. Print Assumptions C73_partial. Print Assumptions C74_refuted. Print Assumptions C74_partial.
Print Assumptions C75_refuted. Print Assumptions C75_connect_refuted. Print Assumptions C75_partial.
Print Assumptions C76_disconnect_clears. Print Assumptions C77_reaches_once. Print Assumptions C77_refused. Print Assumptions C78_matched.
