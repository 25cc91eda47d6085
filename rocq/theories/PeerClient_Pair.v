(** Two clients: what one signal does to a client that is ready, and how a pair of clients settles. *)
From Coq Require Import ZifyBool ZifyNat ZifyN.
From stdpp Require Import prelude gmap.
From Verif Require Import PeerClient_Model PeerClient_Spec PeerClient_Proofs.
Local Open Scope N_scope.

(** a client [me] that is ready for [p], with the state [ko] of its handshake with [p] *)
Definition at_rest (c : client) (me p t w : N) (ko : option kem) : Prop :=
  cl_cid c = me ∧ ready c p t w ∧ cl_kems c !! p = ko.

Lemma ready_link c p t w :
  ready c p t w →
  (∃ set, cl_tries c !! p = Some (t, set)) ∧ cl_pws c !! p = Some w ∧
  match cl_links c !! p with Some v => vl_active v | None => false end = false.
Proof.
  intros (H1 & H2 & H3). split; [done|]. split; [done|]. destruct (cl_links c !! p) as [v|] eqn:E; [by apply H3|done].
Qed.
Lemma create_ready c p t w id k :
  ready c p t w →
  create_link c p id k =
    Some (Some (with_links (with_stale c (delete p (cl_stale c))) (<[p := mk_vlink id k true 0]> (cl_links c)))).
Proof. intros (_ & Hp & Hl)%ready_link. unfold create_link. by rewrite Hp, Hl. Qed.

Lemma accept_ok c me p t w ko tk r i set :
  at_rest c me p t w ko →
  ∃ c', on_signal c tk r i (GConnect (p, me) (Some true) set) =
          Some (c', [ToServer tk (GStage0 (me, p) (Some r) set i)]) ∧
        at_rest c' me p t w (Some (mk_kem (Some (Asking r)) set w i)).
Proof.
  intros (Hc & Hr & Hk). eexists. split; [done|]. split; [done|]. split; [done|]. cbn. rewrite lookup_insert.
  unfold password_for. destruct Hr as (_ & -> & _). done.
Qed.
Lemma stage0_ok c me p t w ko tk r i x set id :
  at_rest c me p t w ko → (me < p → match ko with Some k => km_ctor k = None | None => True end) →
  ∃ c', on_signal c tk r i (GStage0 (p, me) (Some x) set id) =
          Some (c', [ToServer tk (GStage1 (me, p) (Some (x, r, w)) false id)]) ∧
        at_rest c' me p t w (Some (mk_kem (Some (Answering (x, r, w))) set w id)).
Proof.
  intros (Hc & Hr & Hk) Hb. cbn [on_signal fst snd].
  assert (match cl_kems c !! p with Some k => bool_decide (is_Some (km_ctor k)) | None => false end && (me <? p) = false) as ->.
  { rewrite Hk. destruct (N.ltb_spec me p) as [Hlt|]; [|by rewrite andb_false_r]. specialize (Hb Hlt).
    destruct ko as [k|]; [|done]. rewrite Hb. rewrite bool_decide_eq_false_2; [done|]. by intros [? ?]. }
  assert (password_for c p = w) as -> by (unfold password_for; by destruct Hr as (_ & -> & _)).
  eexists. split; [done|]. split; [done|]. split; [done|]. cbn. by rewrite lookup_insert.
Qed.
Lemma stage1_ok c me p t w x set id tk r i y j :
  at_rest c me p t w (Some (mk_kem (Some (Asking x)) set w id)) →
  ∃ c', on_signal c tk r i (GStage1 (p, me) (Some (x, y, w)) true j) =
          Some (c', [ToServer tk (GStage2 (me, p) false); Channel t me p id (x, y, w)]).
Proof.
  intros (Hc & Hr & Hk). cbn [on_signal fst snd]. rewrite Hk. cbn [km_ctor km_pw km_id km_set].
  rewrite bool_decide_eq_true_2 by done. rewrite N.eqb_refl. cbn [andb].
  rewrite (create_ready _ p t w) by done.
  destruct Hr as ([set' Ht] & _). unfold channel_ticket.
  cbn [cl_tries with_kems with_links with_stale]. rewrite Ht. by eexists.
Qed.
Lemma stage1_bad c me p t w x set id tk r i y w' j :
  at_rest c me p t w (Some (mk_kem (Some (Asking x)) set w id)) → w' ≠ w →
  ∃ c', on_signal c tk r i (GStage1 (p, me) (Some (x, y, w')) true j) =
          Some (c', [Failed tk; ToServer tk (GError (me, p))]).
Proof.
  intros (Hc & Hr & Hk) Hw. cbn [on_signal fst snd]. rewrite Hk. cbn [km_ctor km_pw km_id km_set].
  rewrite bool_decide_eq_true_2 by done. destruct (N.eqb_spec w' w); [done|]. cbn [andb]. by eexists.
Qed.
Lemma stage2_ok c me p t w k set id tk r i :
  at_rest c me p t w (Some (mk_kem (Some (Answering k)) set w id)) →
  ∃ c', on_signal c tk r i (GStage2 (p, me) true) = Some (c', [Channel t me p id k]).
Proof.
  intros (Hc & Hr & Hk). cbn [on_signal fst snd]. rewrite Hk. cbn [km_ctor km_pw km_id km_set].
  rewrite (create_ready _ p t w) by done.
  destruct Hr as ([set' Ht] & _). unfold channel_ticket.
  cbn [cl_tries with_kems with_links with_stale]. rewrite Ht. by eexists.
Qed.
Lemma invite_low c me p t w ko tk r i set :
  at_rest c me p t w ko → me < p →
  ∃ c', on_signal c tk r i (GConnect (p, me) None set) = Some (c', [ToServer tk (GConnect (me, p) (Some true) set)]) ∧
        at_rest c' me p t w (Some (mk_kem None set w 0)).
Proof.
  intros (Hc & Hr & Hk) Hlt. cbn [on_signal fst snd]. rewrite Hc. pose proof Hr as ([set' ->] & Hp & _).
  destruct (N.ltb_spec me p); [|lia]. eexists. split; [done|]. split; [done|]. split; [done|]. cbn. rewrite lookup_insert.
  unfold password_for. by rewrite Hp.
Qed.
Lemma invite_high c me p t w ko tk r i set :
  at_rest c me p t w ko → p < me → on_signal c tk r i (GConnect (p, me) None set) = Some (c, []).
Proof.
  intros (Hc & Hr & Hk) Hlt. cbn [on_signal fst snd]. rewrite Hc. pose proof Hr as ([set' ->] & _).
  destruct (N.ltb_spec me p); [lia|done].
Qed.

(** a world that settles within [n] steps, whatever the order, with [P] at the end *)
Fixpoint settles (P : world → Prop) (n : nat) (w : world) : Prop :=
  flows w ∧ (quiet w → P w) ∧
  match n with
  | O => quiet w
  | S m => ∀ who w', wstep w who = Some w' → settles P m w'
  end.

Lemma settles_run (P : world → Prop) n w bs w' :
  settles P n w → wrun w bs = Some w' → (length bs ≤ n)%nat ∧ flows w' ∧ (quiet w' → P w').
Proof.
  revert w bs. induction n as [|n IH]; intros w bs Hs Hr.
  - destruct Hs as (Hf & Hp & [Hq0 Hq1]). destruct bs as [|b bs].
    + injection Hr as <-. cbn. auto.
    + exfalso. cbn [wrun] in Hr. unfold wstep in Hr. rewrite Hq0, Hq1 in Hr. by destruct b.
  - destruct Hs as (Hf & Hp & Hn). destruct bs as [|b bs].
    + injection Hr as <-. cbn. split; [lia|]. auto.
    + cbn [wrun] in Hr. destruct (wstep w b) as [w1|] eqn:E; [|done].
      destruct (IH _ _ (Hn _ _ E) Hr) as (H1 & H2 & H3). cbn. split; [lia|]. auto.
Qed.

Lemma settles_0 (P : world → Prop) n c0 c1 g0 g1 a f : P (mk_world c0 c1 [] [] g0 g1 a f) → settles P n (mk_world c0 c1 [] [] g0 g1 a f).
Proof.
  intros HP. destruct n; (split; [intros []; cbn; done|]); (split; [done|]); [done|].
  intros [] w'; cbn; done.
Qed.
Lemma settles_l (P : world → Prop) n c0 c1 tk s d g0 g1 a f c os l b a' :
  on_signal c0 tk f (f + 1) s = Some (c, os) → relay a os = (l, b, a') →
  settles P n (mk_world c c1 (d ++ b) l (g0 ++ os) g1 a' (f + 2)) →
  settles P (S n) (mk_world c0 c1 ((tk, s) :: d) [] g0 g1 a f).
Proof.
  intros He Hl Hs.
  assert (wstep (mk_world c0 c1 ((tk, s) :: d) [] g0 g1 a f) true = Some (mk_world c c1 (d ++ b) l (g0 ++ os) g1 a' (f + 2))) as Hw.
  { unfold wstep. cbn [wd_down0 wd_down1 wd_c0 wd_c1 wd_fresh wd_accepts wd_got0 wd_got1]. rewrite He, Hl. done. }
  split; [|split].
  - intros [] H; [rewrite Hw; by eexists|done].
  - intros [? _]. done.
  - intros [] w' H; [rewrite Hw in H; by injection H as <-|done].
Qed.
Lemma settles_r (P : world → Prop) n c0 c1 tk s d g0 g1 a f c os l b a' :
  on_signal c1 tk f (f + 1) s = Some (c, os) → relay a os = (l, b, a') →
  settles P n (mk_world c0 c l (d ++ b) g0 (g1 ++ os) a' (f + 2)) →
  settles P (S n) (mk_world c0 c1 [] ((tk, s) :: d) g0 g1 a f).
Proof.
  intros He Hl Hs.
  assert (wstep (mk_world c0 c1 [] ((tk, s) :: d) g0 g1 a f) false = Some (mk_world c0 c l (d ++ b) g0 (g1 ++ os) a' (f + 2))) as Hw.
  { unfold wstep. cbn [wd_down0 wd_down1 wd_c0 wd_c1 wd_fresh wd_accepts wd_got0 wd_got1]. rewrite He, Hl. done. }
  split; [|split].
  - intros [] H; [done|rewrite Hw; by eexists].
  - intros [_ ?]. done.
  - intros [] w' H; [done|rewrite Hw in H; by injection H as <-].
Qed.
Lemma settles_lr (P : world → Prop) n c0 c1 tk s d tk' s' d' g0 g1 a f c os l b a' c' os' l' b' a'' :
  on_signal c0 tk f (f + 1) s = Some (c, os) → relay a os = (l, b, a') →
  on_signal c1 tk' f (f + 1) s' = Some (c', os') → relay a os' = (l', b', a'') →
  settles P n (mk_world c c1 (d ++ b) (((tk', s') :: d') ++ l) (g0 ++ os) g1 a' (f + 2)) →
  settles P n (mk_world c0 c' (((tk, s) :: d) ++ l') (d' ++ b') g0 (g1 ++ os') a'' (f + 2)) →
  settles P (S n) (mk_world c0 c1 ((tk, s) :: d) ((tk', s') :: d') g0 g1 a f).
Proof.
  intros He Hl He' Hl' Hs Hs'.
  set (w := mk_world c0 c1 ((tk, s) :: d) ((tk', s') :: d') g0 g1 a f).
  assert (wstep w true = Some (mk_world c c1 (d ++ b) (((tk', s') :: d') ++ l) (g0 ++ os) g1 a' (f + 2))) as Hw.
  { unfold wstep, w. cbn [wd_down0 wd_down1 wd_c0 wd_c1 wd_fresh wd_accepts wd_got0 wd_got1]. rewrite He, Hl. done. }
  assert (wstep w false = Some (mk_world c0 c' (((tk, s) :: d) ++ l') (d' ++ b') g0 (g1 ++ os') a'' (f + 2))) as Hw'.
  { unfold wstep, w. cbn [wd_down0 wd_down1 wd_c0 wd_c1 wd_fresh wd_accepts wd_got0 wd_got1]. rewrite He', Hl'. done. }
  split; [|split].
  - intros [] H; [rewrite Hw; by eexists|rewrite Hw'; by eexists].
  - intros [? _]. done.
  - intros [] w' H; [rewrite Hw in H; by injection H as <-|rewrite Hw' in H; by injection H as <-].
Qed.

(** the handshake proper: the acceptance is under way to the first *)
Lemma handshake_settles a b t0 t1 w0 w1 k0 k1 c0 c1 tk set g0 g1 n f (P : world → Prop) :
  at_rest c0 a b t0 w0 k0 → at_rest c1 b a t1 w1 k1 →
  (b < a → match k1 with Some k => km_ctor k = None | None => True end) →
  (w0 = w1 → ∀ c c' f', P (mk_world c c' [] []
     (((g0 ++ [ToServer tk (GStage0 (a, b) (Some f) set (f + 1))]) ++
       [ToServer tk (GStage2 (a, b) false); Channel t0 a b (f + 1) (f, f + 2, w1)]))
     ((g1 ++ [ToServer tk (GStage1 (b, a) (Some (f, f + 2, w1)) false (f + 1))]) ++ [Channel t1 b a (f + 1) (f, f + 2, w1)]) n f')) →
  (w0 ≠ w1 → ∀ c c' f', P (mk_world c c' [] []
     (((g0 ++ [ToServer tk (GStage0 (a, b) (Some f) set (f + 1))]) ++ [Failed tk; ToServer tk (GError (a, b))]))
     ((g1 ++ [ToServer tk (GStage1 (b, a) (Some (f, f + 2, w1)) false (f + 1))]) ++ [ToKernel tk (GError (a, b))]) n f')) →
  settles P 4 (mk_world c0 c1 [(tk, GConnect (b, a) (Some true) set)] [] g0 g1 n f).
Proof.
  intros H0 H1 Hk HP HN.
  destruct (accept_ok _ _ _ _ _ _ tk f (f + 1) set H0) as (c0' & E0 & H0').
  eapply settles_l; [exact E0|reflexivity|]. cbn [app].
  destruct (stage0_ok _ _ _ _ _ _ tk (f + 2) (f + 2 + 1) f set (f + 1) H1 Hk) as (c1' & E1 & H1').
  eapply settles_r; [exact E1|reflexivity|]. cbn [app].
  destruct (decide (w0 = w1)) as [Hw|Hw].
  - subst w0. destruct (stage1_ok _ _ _ _ _ _ _ _ tk (f + 2 + 2) (f + 2 + 2 + 1) (f + 2) (f + 1) H0') as (c0'' & E2).
    eapply settles_l; [exact E2|reflexivity|]. cbn [app].
    destruct (stage2_ok _ _ _ _ _ _ _ _ tk (f + 2 + 2 + 2) (f + 2 + 2 + 2 + 1) H1') as (c1'' & E3).
    eapply settles_r; [exact E3|reflexivity|]. cbn [app]. apply settles_0. by apply HP.
  - destruct (stage1_bad _ _ _ _ _ _ _ _ tk (f + 2 + 2) (f + 2 + 2 + 1) (f + 2) w1 (f + 1) H0') as (c0'' & E2); [done|].
    eapply settles_l; [exact E2|reflexivity|]. cbn [app].
    eapply settles_r; [reflexivity|reflexivity|]. cbn [app]. apply settles_0. by apply HN.
Qed.

(** ** The same, with errors under way to the second client *)
Notation noise := (Forall (λ m : N * csig, match m.2 with GError _ => True | _ => False end)).

Section noise.
  Context (P : world → Prop) (a b t0 t1 pw : N).
  Context (HP : ∀ w, joined w a b t0 t1 pw → P w).

  Lemma channels_app g h : channels (g ++ h) = channels g ++ channels h.
  Proof using. unfold channels. by rewrite filter_app. Qed.

  Lemma noise_4 l c0 c1 g0 g1 n f id k :
    noise l → channels g0 = [Channel t0 a b id k] → channels g1 = [Channel t1 b a id k] → k.2 = pw →
    settles P (length l) (mk_world c0 c1 [] l g0 g1 n f).
  Proof using HP.
    intros Hl. revert c1 g1 f. induction Hl as [|[tk s] l Hs Hl IH]; intros c1 g1 f H0 H1 Hk.
    - apply settles_0, HP. by exists id, k.
    - destruct s; try done. cbn [length]. eapply settles_r; [reflexivity|reflexivity|]. rewrite app_nil_r.
      apply IH; [done| |done]. by rewrite channels_app, H1.
  Qed.
  Lemma noise_3 l1 l2 c0 c1 g0 g1 n f id k set tk :
    noise l1 → noise l2 → at_rest c1 b a t1 pw (Some (mk_kem (Some (Answering k)) set pw id)) → k.2 = pw →
    channels g0 = [Channel t0 a b id k] → channels g1 = [] →
    settles P (S (length l1 + length l2)) (mk_world c0 c1 [] (l1 ++ (tk, GStage2 (a, b) true) :: l2) g0 g1 n f).
  Proof using HP.
    intros Hl1 Hl2 Hc Hk Hg0. revert g1 f. induction Hl1 as [|[tk' s] l1 Hs Hl1 IH]; intros g1 f Hg1.
    - cbn [app length Nat.add]. destruct (stage2_ok _ _ _ _ _ _ _ _ tk f (f + 1) Hc) as (c' & E).
      eapply settles_r; [exact E|reflexivity|]. rewrite app_nil_r. eapply noise_4; [done|done| |done].
      by rewrite channels_app, Hg1.
    - destruct s; try done. cbn [app length Nat.add]. eapply settles_r; [reflexivity|reflexivity|]. rewrite app_nil_r.
      apply IH. by rewrite channels_app, Hg1.
  Qed.
  Lemma noise_2 l c0 c1 g0 g1 n f id x y set0 set1 tk j :
    noise l → at_rest c0 a b t0 pw (Some (mk_kem (Some (Asking x)) set0 pw id)) →
    at_rest c1 b a t1 pw (Some (mk_kem (Some (Answering (x, y, pw))) set1 pw id)) →
    channels g0 = [] → channels g1 = [] →
    settles P (S (S (length l))) (mk_world c0 c1 [(tk, GStage1 (b, a) (Some (x, y, pw)) true j)] l g0 g1 n f).
  Proof using HP.
    intros Hl Hc0 Hc1 Hg0. revert g1 f. induction Hl as [|[tk' s] l Hs Hl IH]; intros g1 f Hg1.
    - destruct (stage1_ok _ _ _ _ _ _ _ _ tk f (f + 1) y j Hc0) as (c' & E).
      eapply settles_l; [exact E|reflexivity|]. cbn [app].
      apply (noise_3 [] [] c' c1 _ g1 n (f + 2) id (x, y, pw) set1 tk); try done. by rewrite channels_app, Hg0.
    - destruct s; try done. destruct (stage1_ok _ _ _ _ _ _ _ _ tk f (f + 1) y j Hc0) as (c' & E).
      eapply settles_lr; [exact E|reflexivity|reflexivity|reflexivity| |].
      + cbn [app]. change ((tk', GError cn) :: l ++ [(tk, GStage2 (reverse (b, a)) true)])
          with (((tk', GError cn) :: l) ++ (tk, GStage2 (a, b) true) :: []).
        pose proof (noise_3 ((tk', GError cn) :: l) [] c' c1 (g0 ++ [ToServer tk (GStage2 (a, b) false); Channel t0 a b id (x, y, pw)])
          g1 n (f + 2) id (x, y, pw) set1 tk) as H.
        cbn [length] in H |- *. rewrite Nat.add_0_r in H. apply H; try done; [by constructor|by rewrite channels_app, Hg0].
      + rewrite !app_nil_r. cbn [length]. apply IH. by rewrite channels_app, Hg1.
  Qed.
  Lemma noise_1 l1 l2 c0 c1 g0 g1 n f id x set0 set1 tk ko :
    noise l1 → noise l2 → at_rest c0 a b t0 pw (Some (mk_kem (Some (Asking x)) set0 pw id)) → at_rest c1 b a t1 pw ko →
    (b < a → match ko with Some k => km_ctor k = None | None => True end) →
    channels g0 = [] → channels g1 = [] →
    settles P (S (S (S (length l1 + length l2))))
      (mk_world c0 c1 [] (l1 ++ (tk, GStage0 (a, b) (Some x) set1 id) :: l2) g0 g1 n f).
  Proof using HP.
    intros Hl1 Hl2 Hc0 Hc1 Hk Hg0. revert g1 f. induction Hl1 as [|[tk' s] l1 Hs Hl1 IH]; intros g1 f Hg1.
    - cbn [app length Nat.add]. destruct (stage0_ok _ _ _ _ _ _ tk f (f + 1) x set1 id Hc1 Hk) as (c' & E & Hc').
      eapply settles_r; [exact E|reflexivity|]. rewrite app_nil_r. eapply noise_2; try done. by rewrite channels_app, Hg1.
    - destruct s; try done. cbn [app length Nat.add]. eapply settles_r; [reflexivity|reflexivity|]. rewrite app_nil_r.
      apply IH. by rewrite channels_app, Hg1.
  Qed.
  Lemma noise_0 l c0 c1 g0 g1 n f set tk k0 k1 :
    noise l → at_rest c0 a b t0 pw k0 → at_rest c1 b a t1 pw k1 →
    (b < a → match k1 with Some k => km_ctor k = None | None => True end) →
    channels g0 = [] → channels g1 = [] →
    settles P (S (S (S (S (length l))))) (mk_world c0 c1 [(tk, GConnect (b, a) (Some true) set)] l g0 g1 n f).
  Proof using HP.
    intros Hl Hc0 Hc1 Hk Hg0. revert g1 f. induction Hl as [|[tk' s] l Hs Hl IH]; intros g1 f Hg1.
    - destruct (accept_ok _ _ _ _ _ _ tk f (f + 1) set Hc0) as (c' & E & Hc').
      eapply settles_l; [exact E|reflexivity|]. cbn [app].
      eapply (noise_1 [] [] c' c1); try done. by rewrite channels_app, Hg0.
    - destruct s; try done. destruct (accept_ok _ _ _ _ _ _ tk f (f + 1) set Hc0) as (c' & E & Hc').
      eapply settles_lr; [exact E|reflexivity|reflexivity|reflexivity| |].
      + pose proof (noise_1 ((tk', GError cn) :: l) [] c' c1 (g0 ++ [ToServer tk (GStage0 (a, b) (Some f) set (f + 1))])
          g1 n (f + 2) (f + 1) f set set tk k1) as H.
        cbn [length app] in H |- *. rewrite Nat.add_0_r in H. apply H; try done; [by constructor|by rewrite channels_app, Hg0].
      + rewrite !app_nil_r. cbn [length]. apply IH. by rewrite channels_app, Hg1.
  Qed.

  (** the server has seen that the requests cross, and accepts the first in the second's name *)
  Lemma detected_settles c0 c1 set set' tk tk' f k0 k1 :
    at_rest c0 a b t0 pw k0 → at_rest c1 b a t1 pw k1 → a ≠ b →
    settles P 6 (mk_world c0 c1 [(tk, GConnect (b, a) (Some true) set)] [(tk', GConnect (a, b) None set')] [] [] 0 f).
  Proof using HP.
    intros Hc0 Hc1 Hab. destruct (accept_ok _ _ _ _ _ _ tk f (f + 1) set Hc0) as (c0' & E0 & Hc0').
    destruct (decide (b < a)) as [Hlt|Hge].
    - destruct (invite_low _ _ _ _ _ _ tk' f (f + 1) set' Hc1 Hlt) as (c1' & E1 & Hc1').
      eapply settles_lr; [exact E0|reflexivity|exact E1|reflexivity| |]; cbn [app].
      + destruct (invite_low _ _ _ _ _ _ tk' (f + 2) (f + 2 + 1) set' Hc1 Hlt) as (c1'' & E1' & Hc1'').
        eapply settles_r; [exact E1'|reflexivity|]. cbn [app].
        eapply (noise_1 [] [(tk', GError (b, a))] c0' c1''); try done.
        constructor; [done|constructor].
      + eapply (noise_0 [(tk', GError (b, a))] c0 c1'); try done.
        constructor; [done|constructor].
    - assert (a < b) as Hlt by lia.
      pose proof (λ r i, invite_high _ _ _ _ _ _ tk' r i set' Hc1 Hlt) as E1.
      assert (∀ n w, settles P n w → settles P (S n) w) as Hmono.
      { clear -HP. intros n. induction n as [|n IH]; intros w (H1 & H2 & H3).
        - split; [done|]. split; [done|]. intros who w' Hw. destruct H3 as [Q0 Q1]. unfold wstep in Hw. rewrite Q0, Q1 in Hw. by destruct who.
        - split; [done|]. split; [done|]. intros who w' Hw. apply IH. by eapply H3. }
      apply Hmono.
      eapply settles_lr; [exact E0|reflexivity|apply E1|reflexivity| |]; cbn [app].
      + eapply settles_r; [apply E1|reflexivity|]. cbn [app].
        eapply (noise_1 [] [] c0' c1); try done.
      + eapply (noise_0 [] c0 c1); try done.
  Qed.
  (** the server has not seen it: each request is put to the other client; the first has the higher number *)
  Lemma crossed_settles c0 c1 set set' tk tk' f k0 k1 n :
    at_rest c0 a b t0 pw k0 → at_rest c1 b a t1 pw k1 → b < a →
    settles P 6 (mk_world c0 c1 [(tk, GConnect (b, a) None set)] [(tk', GConnect (a, b) None set')] [] [] (S n) f).
  Proof using HP.
    intros Hc0 Hc1 Hlt.
    pose proof (λ r i, invite_high _ _ _ _ _ _ tk r i set Hc0 Hlt) as E0.
    destruct (invite_low _ _ _ _ _ _ tk' f (f + 1) set' Hc1 Hlt) as (c1' & E1 & Hc1').
    eapply settles_lr; [apply E0|reflexivity|exact E1|reflexivity| |]; cbn [app].
    - destruct (invite_low _ _ _ _ _ _ tk' (f + 2) (f + 2 + 1) set' Hc1 Hlt) as (c1'' & E1' & Hc1'').
      eapply settles_r; [exact E1'|reflexivity|]. cbn [app]. eapply (noise_0 [] c0 c1''); try done.
    - eapply settles_l; [apply E0|reflexivity|]. cbn [app]. eapply (noise_0 [] c0 c1'); try done.
  Qed.
End noise.
