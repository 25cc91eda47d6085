(** Proofs about the network mutex. *)
From stdpp Require Import prelude.
From Verif Require Import NetMutex_Model NetMutex_Spec.
Local Open Scope Z_scope.

Lemma mupd_same {A} (f : bool → A) s x : mupd f s x s = x.
Proof. unfold mupd. by destruct s. Qed.
Lemma mupd_other {A} (f : bool → A) s x : mupd f s x (negb s) = f (negb s).
Proof. unfold mupd. by destruct s. Qed.

Definition idle_mode (m : mode) : Prop := m = Free ∨ m = Bg.
Definition ignored (p : packet) : Prop := p = LockAcquired ∨ p = ReleasedVerified.

(** a node that, having read these packets, waits for the lock to come back *)
Inductive heading (init : bool) : mode → list packet → Prop :=
| h_bg l : Forall ignored l → heading init BgYield l
| h_drop l : Forall ignored l → heading init DropYield l
| h_acq l : Forall ignored l → heading init AcqYield l
| h_try t t' : local_wins init t t' = false → heading init (Trying t) [TryAcquire t'; LockAcquired]
| h_d1 t : heading init (Dropping false) [TryAcquire t; LockAcquired; ReleasedVerified]
| h_d2 : heading init (Dropping true) [LockAcquired; ReleasedVerified]
| h_d3 : heading init (Dropping true) [ReleasedVerified].
(** a node that does not: what it will read first, and what it has sent *)
Inductive settling : mode → list packet → list packet → Prop :=
| s_d1 : settling (Dropping false) [LockAcquired; ReleasedVerified] []
| s_d2 : settling (Dropping false) [ReleasedVerified] []
| s_idle m : idle_mode m → settling m [] []
| s_try t : settling (Trying t) [] [TryAcquire t].

Record view := mk_view { vm : bool → mode; vv : bool → N; vo : bool → list packet }.
Definition view_of (w : mworld) : view := mk_view (λ s, m_mode (mw_node w s)) (λ s, m_value (mw_node w s)) (mw_out w).

Inductive minv (last : N) (w : view) : Prop :=
| K0 : (∀ s, idle_mode (vm w s)) → (∀ s, vo w s = []) → (∀ s, vv w s = last) → minv last w
| K1 x t : vm w x = Trying t → idle_mode (vm w (negb x)) → vo w x = [TryAcquire t] → vo w (negb x) = [] →
    (∀ s, vv w s = last) → minv last w
| K2 (t : bool → Z) : (∀ s, vm w s = Trying (t s)) → (∀ s, vo w s = [TryAcquire (t s)]) → (∀ s, vv w s = last) → minv last w
| K3 x t t' : vm w x = Trying t → vm w (negb x) = AcqYield → vo w x = [] → vo w (negb x) = [TryAcquire t'] →
    local_wins x t t' = true → vv w x = last → minv last w
| KG x t : vm w x = Trying t → vm w (negb x) = BgYield → vo w x = [] → vo w (negb x) = [Released last false] → minv last w
| KH x : vm w x = Guard → heading (negb x) (vm w (negb x)) (vo w x) → vo w (negb x) = [] → vv w x = last → minv last w
| KR x pre : vm w x = Dropping false → heading (negb x) (vm w (negb x)) pre → vo w x = pre ++ [Released last true] →
    vo w (negb x) = [] → vv w x = last → minv last w
| KH2 x : vm w x = Guard → settling (vm w (negb x)) (vo w x) (vo w (negb x)) → vv w x = last → minv last w
| KR2 x pre q f : vm w x = Dropping f → settling (vm w (negb x)) pre q → vo w x = pre ++ [Released last true] →
    (f = false ∧ vo w (negb x) = q) ∨ (f = true ∧ (∃ t, q = [TryAcquire t]) ∧ vo w (negb x) = []) → minv last w
| KD x pre q : vm w x = Dropping false → vo w x = [] → vo w (negb x) = pre ++ q →
    pre = [LockAcquired; ReleasedVerified] ∨ pre = [ReleasedVerified] →
    (idle_mode (vm w (negb x)) ∧ q = []) ∨ (∃ t, vm w (negb x) = Trying t ∧ q = [TryAcquire t]) →
    (∀ s, vv w s = last) → minv last w
| KX x f : vm w x = Dropping f → vo w x = [] →
    (idle_mode (vm w (negb x)) ∧ vo w (negb x) = []) ∨ (∃ t, vm w (negb x) = Trying t ∧ (vo w (negb x) = [TryAcquire t] ∨ vo w (negb x) = [])) →
    minv last w.

(** the change of one node *)
Definition vset (w : view) (s : bool) (m : mode) (v : N) (o : list packet) : view :=
  mk_view (mupd (vm w) s m) (mupd (vv w) s v) (mupd (vo w) s o).

Lemma idle_not m : idle_mode m → m ≠ Guard ∧ m ≠ BgYield ∧ m ≠ AcqYield ∧ m ≠ DropYield ∧ (∀ t, m ≠ Trying t) ∧ ∀ f, m ≠ Dropping f.
Proof. intros [-> | ->]; naive_solver. Qed.
Lemma idle_heading i m l : heading i m l → ¬ idle_mode m.
Proof. intros [] [?|?]; done. Qed.

Lemma settling_idle m pre q : settling m pre q → idle_mode m → pre = [] ∧ q = [].
Proof. intros [] [?|?]; done. Qed.

Lemma bool_all (P : bool → Prop) : P true → P false → ∀ s, P s.
Proof. by intros ? ? []. Qed.

(** extensionality *)
Lemma minv_ext last w w' : (∀ s, vm w' s = vm w s) → (∀ s, vv w' s = vv w s) → (∀ s, vo w' s = vo w s) → minv last w → minv last w'.
Proof.
  intros Hm Hv Ho [].
  - apply K0; intros; rewrite ?Hm, ?Hv, ?Ho; eauto.
  - eapply (K1 _ _ x); intros; rewrite ?Hm, ?Hv, ?Ho; eauto.
  - eapply (K2 _ _ t); intros; rewrite ?Hm, ?Hv, ?Ho; eauto.
  - eapply (K3 _ _ x); intros; rewrite ?Hm, ?Hv, ?Ho; eauto.
  - eapply (KG _ _ x); intros; rewrite ?Hm, ?Hv, ?Ho; eauto.
  - eapply (KH _ _ x); intros; rewrite ?Hm, ?Hv, ?Ho; eauto.
  - eapply (KR _ _ x); intros; rewrite ?Hm, ?Hv, ?Ho; eauto.
  - eapply (KH2 _ _ x); intros; rewrite ?Hm, ?Hv, ?Ho; eauto.
  - eapply (KR2 _ _ x); intros; rewrite ?Hm, ?Hv, ?Ho; eauto.
  - eapply (KD _ _ x); intros; rewrite ?Hm, ?Hv, ?Ho; eauto.
  - eapply (KX _ _ x); intros; rewrite ?Hm, ?Hv, ?Ho; eauto.
Qed.

(** the local lock passes between nobody and the background handler *)
Lemma minv_soft last w w' s :
  minv last w → idle_mode (vm w s) → idle_mode (vm w' s) → vm w' (negb s) = vm w (negb s) →
  (∀ t, vv w' t = vv w t) → (∀ t, vo w' t = vo w t) → minv last w'.
Proof.
  intros Hi H1 H2 H3 Hv Ho. pose proof (idle_not _ H1) as (N1 & N2 & N3 & N4 & N5 & N6).
  destruct Hi as [A B C|x t A B C D E|t A B C|x t t' A B C D E F|x t A B C D|x A B C D|x pre A B C D E|x A B C|x pre q f A B C D|x pre q A B C D E F|x f A B C].
  - apply K0; [|intros; rewrite ?Ho, ?Hv; eauto..]. intros t. specialize (A (negb s)). destruct s, t; cbn in *; congruence.
  - assert (s = negb x) as -> by (destruct s, x; naive_solver). rewrite negb_involutive in *.
    eapply (K1 _ _ x); intros; rewrite ?Hv, ?Ho, ?H3; eauto.
  - naive_solver.
  - exfalso. destruct s, x; naive_solver.
  - exfalso. destruct s, x; naive_solver.
  - exfalso. pose proof (idle_heading _ _ _ B). destruct s, x; naive_solver.
  - exfalso. pose proof (idle_heading _ _ _ B). destruct s, x; naive_solver.
  - assert (s = negb x) as -> by (destruct s, x; naive_solver). rewrite negb_involutive in *.
    eapply (KH2 _ _ x); rewrite ?Hv, ?Ho, ?H3; [done| |done].
    destruct (settling_idle _ _ _ B H1) as [-> ->]. by constructor.
  - assert (s = negb x) as -> by (destruct s, x; naive_solver). rewrite negb_involutive in *.
    eapply (KR2 _ _ x pre q f); rewrite ?Hv, ?Ho, ?H3; [done| |done|done].
    destruct (settling_idle _ _ _ B H1) as [-> ->]. by constructor.
  - assert (s = negb x) as -> by (destruct s, x; naive_solver). rewrite negb_involutive in *.
    eapply (KD _ _ x pre q); intros; rewrite ?Hv, ?Ho, ?H3; eauto. destruct E as [[_ E]|(t & E & _)]; [by left|naive_solver].
  - assert (s = negb x) as -> by (destruct s, x; naive_solver). rewrite negb_involutive in *.
    eapply (KX _ _ x f); intros; rewrite ?Hv, ?Ho, ?H3; eauto. destruct C as [[_ E]|(t & E & _)]; [by left|naive_solver].
Qed.

Lemma minv_acquire last w w' s t :
  minv last w → idle_mode (vm w s) → vm w' s = Trying t → vo w' s = vo w s ++ [TryAcquire t] →
  vm w' (negb s) = vm w (negb s) → vo w' (negb s) = vo w (negb s) → (∀ t, vv w' t = vv w t) → minv last w'.
Proof.
  intros Hi H1 H2 Ho H3 Ho' Hv. pose proof (idle_not _ H1) as (N1 & N2 & N3 & N4 & N5 & N6).
  destruct Hi as [A B C|x t0 A B C D E|t0 A B C|x t0 t' A B C D E F|x t0 A B C D|x A B C D|x pre A B C D E|x A B C|x pre q f A B C D|x pre q A B C D E F|x f A B C].
  - eapply (K1 _ _ s t); intros; rewrite ?Ho, ?Ho', ?Hv, ?H3, ?B; eauto.
  - assert (s = negb x) as -> by (destruct s, x; naive_solver). rewrite negb_involutive in *.
    apply (K2 _ _ (λ b, if Bool.eqb b x then t0 else t)); [| |intros; rewrite Hv; eauto].
    + intros b. destruct b, x; cbn in *; congruence.
    + intros b. destruct b, x; cbn in *; rewrite ?Ho, ?Ho', ?C, ?D; done.
  - naive_solver.
  - exfalso. destruct s, x; naive_solver.
  - exfalso. destruct s, x; naive_solver.
  - exfalso. pose proof (idle_heading _ _ _ B). destruct s, x; naive_solver.
  - exfalso. pose proof (idle_heading _ _ _ B). destruct s, x; naive_solver.
  - assert (s = negb x) as -> by (destruct s, x; naive_solver). rewrite negb_involutive in *.
    eapply (KH2 _ _ x); rewrite ?Hv, ?Ho, ?Ho', ?H2, ?H3; [done| |done].
    destruct (settling_idle _ _ _ B H1) as [-> ->]. constructor.
  - assert (s = negb x) as -> by (destruct s, x; naive_solver). rewrite negb_involutive in *.
    destruct (settling_idle _ _ _ B H1) as [-> ->]. destruct D as [[-> D]|(_ & [? ?] & _)]; [|done].
    eapply (KR2 _ _ x [] [TryAcquire t] false); rewrite ?Ho, ?Ho', ?H2, ?H3; [done|constructor|done|]. left. by rewrite D.
  - assert (s = negb x) as -> by (destruct s, x; naive_solver). rewrite negb_involutive in *.
    destruct E as [[_ ->]|(t1 & E & _)]; [|naive_solver].
    eapply (KD _ _ x pre [TryAcquire t]); intros; rewrite ?Hv, ?Ho, ?Ho', ?H2, ?H3; eauto. rewrite C. by rewrite app_nil_r.
  - assert (s = negb x) as -> by (destruct s, x; naive_solver). rewrite negb_involutive in *.
    destruct C as [[_ E]|(t1 & E & _)]; [|naive_solver].
    eapply (KX _ _ x f); intros; rewrite ?Ho', ?H3; eauto. right. exists t. split; [done|]. left. by rewrite Ho, E.
Qed.

Lemma minv_drop last w w' s v :
  minv last w → vm w s = Guard → vm w' s = Dropping false → vo w' s = vo w s ++ [Released v true] → vv w' s = v →
  vm w' (negb s) = vm w (negb s) → vo w' (negb s) = vo w (negb s) → minv v w'.
Proof.
  intros Hi H1 H2 Ho Hv H3 Ho'.
  destruct Hi as [A B C|x t A B C D E|t A B C|x t t' A B C D E F|x t A B C D|x A B C D|x pre A B C D E|x A B C|x pre q f A B C D|x pre q A B C D E F|x f A B C].
  - exfalso. destruct (A s); congruence.
  - exfalso. destruct B; destruct s, x; cbn in *; congruence.
  - exfalso. specialize (A s). congruence.
  - exfalso. destruct s, x; cbn in *; congruence.
  - exfalso. destruct s, x; cbn in *; congruence.
  - assert (s = x) as ->. { destruct s, x; try done; cbn in *; rewrite H1 in B; inversion B. }
    eapply (KR _ _ x (vo w x)); rewrite ?H3, ?Ho, ?Ho'; done.
  - exfalso. destruct s, x; cbn in *; try congruence; rewrite H1 in B; inversion B.
  - assert (s = x) as ->. { destruct s, x; try done; cbn in *; rewrite H1 in B; inversion B; by destruct (idle_not Guard). }
    eapply (KR2 _ _ x (vo w x) (vo w (negb x)) false); rewrite ?H3, ?Ho, ?Ho'; auto.
  - exfalso. destruct s, x; cbn in *; try congruence; rewrite H1 in B; inversion B; by destruct (idle_not Guard).
  - exfalso. destruct E as [[[E|E] _]|(t & E & _)]; destruct s, x; cbn in *; congruence.
  - exfalso. destruct C as [[[E|E] _]|(t & E & _)]; destruct s, x; cbn in *; congruence.
Qed.

Lemma wins_anti t t' s : local_wins s t t' = true → local_wins (negb s) t' t = false.
Proof.
  unfold local_wins. destruct (Z.eqb_spec t' t) as [H|H], (Z.eqb_spec t t') as [H'|H'], (Z.ltb_spec t t'), (Z.ltb_spec t' t), s; cbn; intros; try done; lia.
Qed.
Lemma wins_total t t' s : local_wins s t t' = false → local_wins (negb s) t' t = true.
Proof.
  unfold local_wins. destruct (Z.eqb_spec t' t) as [H|H], (Z.eqb_spec t t') as [H'|H'], (Z.ltb_spec t t'), (Z.ltb_spec t' t), s; cbn; intros; try done; lia.
Qed.

Lemma heading_nil i m : heading i m [] → m = BgYield ∨ m = DropYield ∨ m = AcqYield.
Proof. inversion 1; auto. Qed.
Lemma heading_recv i n m p pre n' out g :
  heading i m (p :: pre) → m_mode n = m → recv i n p = Some (n', out, g) → out = [] ∧ g = false ∧ heading i (m_mode n') pre.
Proof.
  intros B. inversion B as [l Hf|l Hf|l Hf|t0 t1 Hw|t0| |]; subst; intros Hm Hrec; unfold recv in Hrec; rewrite Hm in Hrec;
    try (apply Forall_cons in Hf as [[-> | ->] Hf]); try rewrite Hw in Hrec; cbn in Hrec; injection Hrec as <- <- <-; cbn;
    rewrite ?Hm; split_and!; try done; try (by constructor). constructor. repeat constructor.
Qed.
Lemma settling_recv i n m p pre q n' out g :
  settling m (p :: pre) q → m_mode n = m → recv i n p = Some (n', out, g) → q = [] ∧ out = [] ∧ g = false ∧ settling (m_mode n') pre [].
Proof.
  intros B. inversion B; subst; intros Hm Hrec; unfold recv in Hrec; rewrite Hm in Hrec; cbn in Hrec; injection Hrec as <- <- <-;
    cbn; rewrite ?Hm; split_and!; try done; constructor. by left.
Qed.
(** One packet read: the new view, and what is handed out. *)
Lemma minv_deliver last w w' s n p rest n' out g :
  minv last w → vo w (negb s) = p :: rest → m_mode n = vm w s → m_value n = vv w s → recv s n p = Some (n', out, g) →
  vm w' s = m_mode n' → vv w' s = m_value n' → vo w' s = vo w s ++ out →
  vm w' (negb s) = vm w (negb s) → vv w' (negb s) = vv w (negb s) → vo w' (negb s) = rest →
  minv last w' ∧ (g = true → m_value n' = last).
Proof.
  intros Hi Hp Hmn Hvn Hrec M1 V1 O1 M2 V2 O2.
  assert (HV : ∀ t, vv w' t = vv w t ∨ (t = s)).
  { intros t. destruct s, t; cbn in *; auto. }
  pose proof Hrec as Hrec0. unfold recv in Hrec. rewrite Hmn in Hrec.
  destruct Hi as [A B C|x t A B C D E|t A B C|x t t' A B C D E F|x t A B C D|x A B C D|x pre A B C D E|x A B C|x pre q f A B C D|x pre q A B C D E F|x f A B C].
  - by rewrite B in Hp.
  - (* a request, read by the background handler *)
    assert (s = negb x) as -> by (destruct s, x; cbn in *; congruence). rewrite negb_involutive in *.
    rewrite C in Hp. injection Hp as <- <-. destruct B as [B|B]; rewrite B in Hrec; [done|]. injection Hrec as <- <- <-.
    split; [|done]. eapply (KG _ _ x t); rewrite ?M1, ?M2, ?O1, ?O2, ?D; try done. cbn. by rewrite Hvn, E.
  - (* both asked *)
    rewrite B in Hp. injection Hp as <- <-. rewrite A in Hrec. destruct (local_wins s (t s) (t (negb s))) eqn:Ew; injection Hrec as <- <- <-.
    + split; [|cbn; intros _; by rewrite Hvn]. eapply (KH _ _ s); rewrite ?M1, ?M2, ?O1, ?O2, ?V1; try done; [|cbn; by rewrite Hvn].
      rewrite A, B. cbn. apply h_try. by apply wins_anti.
    + split; [|done]. eapply (K3 _ _ (negb s)); rewrite ?negb_involutive, ?M1, ?M2, ?O1, ?O2, ?V2, ?B, ?A; try done. by apply wins_total.
  - (* the loser knows already *)
    assert (s = x) as -> by (destruct s, x; cbn in *; congruence).
    rewrite D in Hp. injection Hp as <- <-. rewrite A, E in Hrec. injection Hrec as <- <- <-.
    split; [|cbn; intros _; by rewrite Hvn]. eapply (KH _ _ x); rewrite ?M1, ?M2, ?O1, ?O2, ?V1; try done; [|cbn; by rewrite Hvn].
    rewrite B, C. cbn. apply h_acq. repeat constructor.
  - (* granted *)
    assert (s = x) as -> by (destruct s, x; cbn in *; congruence).
    rewrite D in Hp. injection Hp as <- <-. rewrite A in Hrec. injection Hrec as <- <- <-.
    split; [|done]. eapply (KH _ _ x); rewrite ?M1, ?M2, ?O1, ?O2, ?V1; try done.
    rewrite B, C. cbn. apply h_bg. constructor; [by left|]. constructor; [by right|constructor].
  - (* the other end gets ready to wait *)
    assert (s = negb x) as -> by (destruct s, x; cbn in *; congruence). rewrite negb_involutive in *.
    rewrite Hp in B. destruct (heading_recv _ _ _ _ _ _ _ _ B Hmn Hrec0) as (-> & -> & Hh). split; [|done]. rewrite app_nil_r in O1.
    eapply (KH _ _ x); rewrite ?M1, ?M2, ?O1, ?O2, ?V2; done.
  - (* the same with the release under way *)
    assert (s = negb x) as -> by (destruct s, x; cbn in *; congruence). rewrite negb_involutive in *.
    rewrite C in Hp. destruct pre as [|p0 pre]; injection Hp as <- <-.
    + rewrite D in O1. cbn [app] in O1.
      assert (Hvv : vv w' (negb x) = last → ∀ t, vv w' t = last).
      { intros Hl t. destruct (bool_decide_reflect (t = x)) as [-> |Ht]; [by rewrite V2|]. by replace t with (negb x) by (by destruct t, x). }
      destruct (heading_nil _ _ B) as [Em|[Em|Em]]; rewrite Em in Hrec; cbn in Hrec; injection Hrec as <- <- <-; (split; [|done]).
      * apply (KD _ _ x [LockAcquired; ReleasedVerified] []); rewrite ?M1, ?M2, ?O1, ?O2; auto. left. split; [by left|done].
      * apply (KD _ _ x [LockAcquired; ReleasedVerified] []); rewrite ?M1, ?M2, ?O1, ?O2; auto. left. split; [by left|done].
      * apply (KH2 _ _ (negb x)); rewrite ?negb_involutive, ?M1, ?M2, ?O1, ?O2, ?V1; try done. rewrite A. constructor.
    + destruct (heading_recv _ _ _ _ _ _ _ _ B Hmn Hrec0) as (-> & -> & Hh). split; [|done]. rewrite app_nil_r in O1.
      eapply (KR _ _ x pre); rewrite ?M1, ?M2, ?O1, ?O2, ?V2; done.
  - (* the other end finishes its release *)
    assert (s = negb x) as -> by (destruct s, x; cbn in *; try done; rewrite A in Hrec; done). rewrite negb_involutive in *.
    rewrite Hp in B. destruct (settling_recv _ _ _ _ _ _ _ _ _ B Hmn Hrec0) as (Eq & -> & -> & Hh). split; [|done]. rewrite app_nil_r, Eq in O1.
    apply (KH2 _ _ x); rewrite ?M1, ?M2, ?O1, ?O2, ?V2; done.
  - destruct (bool_decide_reflect (s = x)) as [->|Hs].
    + (* the releasing node reads the request of the other *)
      rewrite A in Hrec. destruct D as [[-> D]|(-> & _ & D)]; [|by rewrite D in Hp].
      assert (∃ t, p = TryAcquire t ∧ rest = [] ∧ pre = [] ∧ vm w (negb x) = Trying t) as (t & -> & -> & -> & Em).
      { rewrite <- D, Hp in B. inversion B. eauto. }
      injection Hrec as <- <- <-. split; [|done]. rewrite app_nil_r in O1.
      apply (KR2 _ _ x [] [TryAcquire t] true); rewrite ?M1, ?M2, ?O1, ?O2, ?C; try done.
      { rewrite Em. constructor. } right. split; [done|]. split; [by exists t|done].
    + assert (s = negb x) as -> by (by destruct s, x). rewrite negb_involutive in *. clear Hs.
      rewrite C in Hp. destruct pre as [|p0 pre]; injection Hp as <- <-.
      * assert ((idle_mode (vm w (negb x)) ∧ q = []) ∨ (∃ t, vm w (negb x) = Trying t ∧ q = [TryAcquire t])) as [[Hm ->]|(t & Em & ->)].
        { inversion B; eauto. }
        { (* nobody there wants the lock: the release is thrown away *)
          destruct D as [[-> D]|(_ & [? ?] & _)]; [|done].
          destruct Hm as [Hm|Hm]; rewrite Hm in Hrec; [done|]. injection Hrec as <- <- <-. split; [|done]. rewrite app_nil_r in O1.
          apply (KX _ _ x false); rewrite ?M1, ?M2, ?O1, ?O2; try done. left. split; [by left|done]. }
        rewrite Em in Hrec. injection Hrec as <- <- <-. split; [|done].
        apply (KH _ _ (negb x)); rewrite ?negb_involutive, ?M1, ?M2, ?O1, ?O2, ?V1; try done. rewrite A.
        destruct D as [[-> D]|(-> & _ & D)]; rewrite D; constructor.
      * destruct (settling_recv _ _ _ _ _ _ _ _ _ B Hmn Hrec0) as (-> & -> & -> & Hh).
        destruct D as [[-> D]|(_ & [? ?] & _)]; [|done]. split; [|done]. rewrite app_nil_r in O1.
        apply (KR2 _ _ x pre [] false); rewrite ?M1, ?M2, ?O1, ?O2; auto.
  - (* the verification of the release *)
    assert (s = x) as -> by (destruct s, x; cbn in *; congruence).
    rewrite C in Hp. rewrite A in Hrec. destruct D as [-> | ->]; cbn [app] in Hp; injection Hp as <- <-; injection Hrec as <- <- <-; (split; [|done]);
      rewrite app_nil_r in O1.
    + apply (KD _ _ x [ReleasedVerified] q); rewrite ?M1, ?M2, ?O1, ?O2; auto; [by rewrite Hmn|].
      intros t. destruct (HV t) as [-> | ->]; [done|]. by rewrite V1, Hvn.
    + assert (Hvv : ∀ t, vv w' t = last). { intros t. destruct (HV t) as [-> | ->]; [done|]. rewrite V1. cbn. by rewrite Hvn. }
      destruct E as [[E ->]|(t & E & ->)].
      * apply K0; [| |done].
        { intros t. destruct (bool_decide_reflect (t = x)) as [-> |Ht]; [rewrite M1; by left|].
          replace t with (negb x) by (by destruct t, x). by rewrite M2. }
        { intros t. destruct (bool_decide_reflect (t = x)) as [-> |Ht]; [by rewrite O1|].
          replace t with (negb x) by (by destruct t, x). by rewrite O2. }
      * apply (K1 _ _ (negb x) t); rewrite ?negb_involutive, ?M1, ?M2, ?O1, ?O2; try done. by left.
  - (* dead *)
    assert (s = x) as -> by (destruct s, x; cbn in *; congruence).
    destruct C as [[_ C]|(t & Ct & [C|C])]; rewrite C in Hp; try done. injection Hp as <- <-. rewrite A in Hrec. injection Hrec as <- <- <-.
    split; [|done]. rewrite app_nil_r in O1. apply (KX _ _ x true); rewrite ?M1, ?M2, ?O1, ?O2; try done. right. exists t. auto.
Qed.

(** *** Steps *)
Definition written (w : mworld) (e : mevent) (v : N) : N :=
  match e with DropGuard s v' => match m_mode (mw_node w s) with Guard => v' | _ => v end | _ => v end.

(** the three kinds of local events, as seen in the view *)
Lemma view_same last w s n :
  minv last (view_of w) → m_mode n = m_mode (mw_node w s) ∨ (idle_mode (m_mode n) ∧ idle_mode (m_mode (mw_node w s))) →
  m_value n = m_value (mw_node w s) → minv last (view_of (mk_mworld (mupd (mw_node w) s n) (mw_out w))).
Proof.
  intros Hi Hm Hv.
  assert (HV : ∀ t, vv (view_of (mk_mworld (mupd (mw_node w) s n) (mw_out w))) t = vv (view_of w) t).
  { intros t. cbn. unfold mupd. destruct (Bool.eqb t s) eqn:E; [|done]. by apply eqb_prop in E as ->. }
  destruct Hm as [Hm|[H1 H2]].
  - eapply minv_ext; [|done|done|done]. intros t. cbn. unfold mupd. destruct (Bool.eqb t s) eqn:E; [|done]. by apply eqb_prop in E as ->.
  - eapply (minv_soft last (view_of w) _ s); cbn; rewrite ?mupd_same, ?mupd_other; try done.
Qed.

Lemma minv_step last w e w' o :
  minv last (view_of w) → ordinary e → mstep w e = (w', o) →
  minv (written w e last) (view_of w') ∧ ∀ s v, o = Some (s, v) → v = last.
Proof.
  intros Hi Hord. destruct e as [s|s|s t|s|s|s v|s|s|s]; cbn [mstep written]; [..|done|done].
  - destruct (m_bg (mw_node w s)); intros [= <- <-]; (split; [|done]); try done; (apply view_same; [done|by left|done]).
  - destruct (m_sent (mw_node w s)); intros [= <- <-]; (split; [|done]); [done|]. apply view_same; [done|by left|done].
  - destruct (m_mode (mw_node w s)) eqn:Em; try (intros [= <- <-]; done). destruct (m_queued (mw_node w s)) as [|k]; [intros [= <- <-]; done|].
    intros [= <- <-]. split; [|done]. eapply (minv_acquire last (view_of w) _ s t); cbn; rewrite ?mupd_same, ?mupd_other; try done.
    + by left.
    + intros b. unfold mupd. destruct (Bool.eqb b s) eqn:E; [|done]. by apply eqb_prop in E as ->.
  - destruct (m_bg (mw_node w s)), (m_mode (mw_node w s)) eqn:Em; try (intros [= <- <-]; done);
      try (intros [= <- <-]; split; [|done]; apply view_same; [done|by left|done]).
    destruct (m_queued (mw_node w s)); intros [= <- <-]; (split; [|done]); (apply view_same; [done| |done]).
    + right. rewrite Em. split; [by right|by left].
    + by left.
  - destruct (m_sig (mw_node w s)) as [|k]; [intros [= <- <-]; done|].
    destruct (m_mode (mw_node w s)) eqn:Em, (m_bg (mw_node w s)); intros [= <- <-]; (split; [|done]); try done;
      (apply view_same; [done| |done]); try (by left); right; rewrite Em; (split; [by left|by right]).
  - destruct (m_mode (mw_node w s)) eqn:Em; intros [= <- <-]; try done. split; [|done].
    eapply (minv_drop last (view_of w) _ s v); cbn; rewrite ?mupd_same, ?mupd_other; done.
  - destruct (mw_out w (negb s)) as [|p rest] eqn:Eo; [intros [= <- <-]; done|].
    destruct (recv s (mw_node w s) p) as [[[n out] g]|] eqn:Er; [|intros [= <- <-]; done]. intros [= <- <-].
    destruct (minv_deliver last (view_of w) (view_of (mk_mworld (mupd (mw_node w) s n) (mupd (mupd (mw_out w) (negb s) rest) s (mw_out w s ++ out))))
      s (mw_node w s) p rest n out g) as [Hi' Hg]; cbn; rewrite ?mupd_same, ?mupd_other, ?mupd_same; try done.
    split; [done|]. intros s' v. destruct g; [|done]. intros [= <- <-]. by apply Hg.
Qed.

Lemma minv_run es last w w' os :
  minv last (view_of w) → Forall ordinary es → mrun w es = (w', os) → minv (last_written w es last) (view_of w').
Proof.
  revert last w os. induction es as [|e es IH]; intros last w os Hi Hf; cbn [mrun last_written]; [by intros [= <- <-]|].
  apply Forall_cons in Hf as [He Hes]. destruct (mstep w e) as [w1 o] eqn:E1. destruct (mrun w1 es) as [w2 os2] eqn:E2.
  intros [= <- _]. destruct (minv_step last w e w1 o Hi He E1) as [Hi1 _].
  by apply (IH (written w e last) w1 os2).
Qed.
Lemma minv_init v : minv v (view_of (mworld_init v)).
Proof. apply K0; [by left|done|done]. Qed.
Lemma minv_clash last w : minv last (view_of w) → ¬ clash w.
Proof.
  intros Hi [H1 H2]. unfold holds in *.
  assert (HG : ∀ s, vm (view_of w) s = Guard) by (by intros []).
  destruct Hi as [A B C|x t A B C D E|t A B C|x t t' A B C D E F|x t A B C D|x A B C D|x pre A B C D E|x A B C|x pre q f A B C D|x pre q A B C D E F|x f A B C];
    try (by rewrite HG in A).
  - specialize (A true). rewrite HG in A. by destruct A.
  - specialize (A true). by rewrite HG in A.
  - rewrite HG in B. inversion B.
  - rewrite HG in B. inversion B as [| |? [?|?]|]; done.
Qed.

(** *** The state from which nothing is handed out any more *)
Definition buried (w : mworld) : Prop :=
  ∃ x f, m_mode (mw_node w x) = Dropping f ∧ mw_out w x = [] ∧
    ((idle_mode (m_mode (mw_node w (negb x))) ∧ mw_out w (negb x) = []) ∨
     (∃ t, m_mode (mw_node w (negb x)) = Trying t ∧ (mw_out w (negb x) = [TryAcquire t] ∨ mw_out w (negb x) = []))).
Lemma bool_either' (s x : bool) : s = x ∨ s = negb x.
Proof. destruct s, x; auto. Qed.
Lemma buried_local w s n :
  buried w → m_mode n = m_mode (mw_node w s) ∨ (idle_mode (m_mode n) ∧ idle_mode (m_mode (mw_node w s))) →
  buried (mk_mworld (mupd (mw_node w) s n) (mw_out w)).
Proof.
  intros (x & f & A & B & C) Hm. exists x, f. destruct (bool_either' s x) as [-> | ->]; cbn.
  - rewrite mupd_same, mupd_other. destruct Hm as [-> |[_ [H|H]]]; [done|congruence..].
  - rewrite mupd_same. replace (mupd (mw_node w) (negb x) n x) with (mw_node w x) by (by destruct x). split_and!; [done|done|].
    destruct Hm as [Hm|[H1 H2]]; [by rewrite Hm|]. destruct C as [[_ C]|(t & C & _)]; [by left|]. rewrite C in H2. by destruct H2.
Qed.
Lemma buried_step w e : buried w → ordinary e → buried (mstep w e).1 ∧ (mstep w e).2 = None.
Proof.
  intros Hb Hord. destruct e as [s|s|s t|s|s|s v|s|s|s]; cbn [mstep]; [..|done|done].
  - destruct (m_bg (mw_node w s)); cbn [fst snd]; (split; [|done]); try done; (apply buried_local; [done|by left]).
  - destruct (m_sent (mw_node w s)); cbn [fst snd]; (split; [|done]); [done|]. apply buried_local; [done|by left].
  - destruct (m_mode (mw_node w s)) eqn:Em; try done. destruct (m_queued (mw_node w s)) as [|k]; [done|]. cbn [fst snd]. split; [|done].
    destruct Hb as (x & f & A & B & C). assert (s = negb x) as -> by (destruct s, x; cbn in *; congruence). exists x, f. cbn.
    rewrite !mupd_same. replace (mupd (mw_node w) (negb x) _ x) with (mw_node w x) by (by destruct x).
    replace (mupd (mw_out w) (negb x) _ x) with (mw_out w x) by (by destruct x). split_and!; [done|done|]. right. exists t. split; [done|]. left.
    destruct C as [[_ C]|(t' & C & _)]; [by rewrite C|congruence].
  - destruct (m_bg (mw_node w s)), (m_mode (mw_node w s)) eqn:Em; try done; cbn [fst snd];
      try (split; [|done]; apply buried_local; [done|by left]).
    destruct (m_queued (mw_node w s)); cbn [fst snd]; (split; [|done]); (apply buried_local; [done|]); [right|by left].
    rewrite Em. split; [by right|by left].
  - destruct (m_sig (mw_node w s)) as [|k]; [done|].
    destruct (m_mode (mw_node w s)) eqn:Em, (m_bg (mw_node w s)); cbn [fst snd]; (split; [|done]); try done;
      (apply buried_local; [done|]); try (by left); right; rewrite Em; (split; [by left|by right]).
  - destruct (m_mode (mw_node w s)) eqn:Em; try done. exfalso. destruct Hb as (x & f & A & B & C).
    destruct C as [[[C|C] _]|(t & C & _)]; destruct s, x; cbn in *; congruence.
  - destruct (mw_out w (negb s)) as [|p rest] eqn:Eo; [done|].
    destruct Hb as (x & f & A & B & C). assert (s = x) as -> by (destruct s, x; cbn in *; congruence).
    destruct C as [[_ C]|(t & Ct & [C|C])]; rewrite C in Eo; try done. injection Eo as <- <-.
    unfold recv. rewrite A. cbn. split; [|done]. exists x, true. cbn. rewrite !mupd_same, !mupd_other, mupd_same, B.
    split_and!; [done|done|]. right. exists t. auto.
Qed.
Lemma buried_run es w : buried w → Forall ordinary es → (mrun w es).2 = [].
Proof.
  revert w. induction es as [|e es IH]; intros w Hb Hf; [done|]. apply Forall_cons in Hf as [He Hes]. cbn [mrun].
  destruct (buried_step w e Hb He) as [Hb1 Ho]. destruct (mstep w e) as [w1 o]. cbn [fst snd] in *. subst o.
  specialize (IH w1 Hb1 Hes). by destruct (mrun w1 es).
Qed.

(** while a guard is held, the value in it is the last one written *)
Lemma minv_held last w s : minv last (view_of w) → holds w s → m_value (mw_node w s) = last.
Proof.
  intros Hi H. unfold holds in H. change (vm (view_of w) s = Guard) in H. change (vv (view_of w) s = last). destruct (view_of w) as [m u o]. cbn in *.
  destruct Hi as [A B C|x t A B C D E|t A B C|x t t' A B C D E F|x t A B C D|x A B C D|x pre A B C D E|x A B C|x pre q f A B C D|x pre q A B C D E F|x f A B C];
    cbn in *; try done.
  - destruct (bool_either' s x) as [-> | ->]; congruence.
  - destruct (bool_either' s x) as [-> | ->]; congruence.
  - destruct (bool_either' s x) as [-> | ->]; [done|]. rewrite H in B. inversion B.
  - destruct (bool_either' s x) as [-> | ->]; [congruence|]. rewrite H in B. inversion B.
  - destruct (bool_either' s x) as [-> | ->]; [done|]. rewrite H in B. inversion B as [| |? [?|?]|]; done.
  - destruct (bool_either' s x) as [-> | ->]; [congruence|]. rewrite H in B. inversion B as [| |? [?|?]|]; done.
  - destruct (bool_either' s x) as [-> | ->]; [congruence|]. destruct C as [[[?|?] _]|(t & ? & _)]; congruence.
Qed.

(** *** The lost wake-up *)
Definition overslept (w : mworld) : Prop :=
  m_mode (mw_node w true) = Bg ∧ m_sig (mw_node w true) = 0%nat ∧ m_sent (mw_node w true) = 0%nat ∧
  idle_mode (m_mode (mw_node w false)) ∧ m_queued (mw_node w false) = 0%nat ∧ m_sent (mw_node w false) = 0%nat ∧
  mw_out w true = [] ∧ mw_out w false = [].
Lemma overslept_step w e : overslept w → quiet e → overslept (mstep w e).1 ∧ (mstep w e).2 = None.
Proof.
  intros (A & B & C & D & E & F & G & H) Hq. assert (Hw : overslept w) by (by repeat split).
  destruct e as [s|s|s t|s|s|s v|s|s|s]; cbn [mstep]; [done|..|done|done].
  - by destruct s; rewrite ?C, ?F.
  - destruct s; [by rewrite A|]. rewrite E. by destruct (m_mode (mw_node w false)).
  - destruct s.
    + rewrite A. by destruct (m_bg (mw_node w true)).
    + rewrite E. destruct (m_bg (mw_node w false)); [|done..]. destruct D as [-> | ->]; [|done]. cbn [fst snd]. split; [|done].
      unfold overslept. cbn. repeat split; try done. by right.
  - destruct s; [by rewrite B|]. destruct (m_sig (mw_node w false)); [done|].
    destruct D as [D|D]; rewrite D; destruct (m_bg (mw_node w false)); cbn [fst snd]; (split; [|done]); try done;
      unfold overslept; cbn; repeat split; try done; try (by left); rewrite D; by left.
  - destruct s; [by rewrite A|]. by destruct D as [-> | ->].
  - by destruct s; cbn [negb]; rewrite ?G, ?H.
Qed.
Lemma overslept_run es w : overslept w → Forall quiet es → (mrun w es).2 = [].
Proof.
  revert w. induction es as [|e es IH]; intros w Hb Hf; [done|]. apply Forall_cons in Hf as [He Hes]. cbn [mrun].
  destruct (overslept_step w e Hb He) as [Hb1 Ho]. destruct (mstep w e) as [w1 o]. cbn [fst snd] in *. subst o.
  specialize (IH w1 Hb1 Hes). by destruct (mrun w1 es).
Qed.
