(** Proofs about the re-key protocol. *)
From Coq Require Import ZifyBool ZifyNat ZifyN.
From stdpp Require Import prelude gmap.
From Verif Require Import Rekey_Model Rekey_Spec.
Local Open Scope N_scope.

Lemma upd_same {A} (f : bool → A) s x : upd f s x s = x.
Proof. unfold upd. by destruct s. Qed.
Lemma upd_other {A} (f : bool → A) s x : upd f s x (negb s) = f (negb s).
Proof. unfold upd. by destruct s. Qed.
Lemma upd_other' {A} (f : bool → A) s x : upd f (negb s) x s = f s.
Proof. unfold upd. by destruct s. Qed.
Lemma upd_id {A} (f : bool → A) s t : upd f s (f s) t = f t.
Proof. unfold upd. by destruct s, t. Qed.

Section proofs.
Context (MAX : nat) (HMAX : (3 ≤ MAX)%nat).

(** ** The key ring *)
Lemma kr_get_some r v : is_Some (kr_get r v) ↔ kr_oldest r ≤ v < kr_oldest r + N.of_nat (length (kr_keys r)).
Proof.
  unfold kr_get. destruct (N.leb_spec (kr_oldest r) v) as [H|H].
  - rewrite lookup_lt_is_Some. lia.
  - split; [intros [? ?]; done|lia].
Qed.
Lemma kr_get_newest r : (1 ≤ length (kr_keys r))%nat → is_Some (kr_get r (kr_newest r)).
Proof. intros H. apply kr_get_some. unfold kr_newest. lia. Qed.
Lemma kr_push_get r x v k : kr_get r v = Some k → kr_get (kr_push MAX r x).1 v = Some k.
Proof.
  unfold kr_get, kr_push. cbn [fst kr_oldest kr_keys]. case_match; [|done]. intros E. by apply lookup_app_l_Some.
Qed.
Lemma kr_push_newest r x : (1 ≤ length (kr_keys r))%nat → kr_newest (kr_push MAX r x).1 = kr_newest r + 1.
Proof. unfold kr_newest, kr_push. cbn [fst kr_oldest kr_keys]. rewrite app_length. cbn [length]. lia. Qed.
Lemma kr_push_length r x : length (kr_keys (kr_push MAX r x).1) = S (length (kr_keys r)).
Proof. unfold kr_push. cbn [fst kr_keys]. rewrite app_length. cbn [length]. lia. Qed.
Lemma kr_pop_spec r o r' :
  kr_pop MAX r o = Some r' → kr_oldest r = o ∧ (MAX ≤ length (kr_keys r))%nat ∧ ∃ x l, kr_keys r = x :: l ∧ r' = mk_keyring (o + 1) l.
Proof.
  unfold kr_pop. case_bool_decide; [done|]. destruct (N.eqb_spec (kr_oldest r) o); [|done]. cbn [negb].
  destruct (kr_keys r) as [|x l] eqn:E; [done|]. intros [= <-]. subst.
  split; [done|]. split; [by lia|]. by exists x, l.
Qed.
Lemma kr_pop_get r o r' v k : kr_pop MAX r o = Some r' → v ≠ o → kr_get r v = Some k → kr_get r' v = Some k.
Proof.
  intros (Ho & _ & x & l & Hk & ->)%kr_pop_spec Hv. unfold kr_get. rewrite Hk, Ho. cbn [kr_oldest kr_keys].
  destruct (N.leb_spec o v) as [H|H]; [|done]. destruct (N.leb_spec (o + 1) v) as [H1|H1]; [|lia].
  replace (N.to_nat (v - o)) with (S (N.to_nat (v - (o + 1)))) by lia. done.
Qed.
Lemma kr_pop_get_inv r o r' v k : kr_pop MAX r o = Some r' → kr_get r' v = Some k → kr_get r v = Some k.
Proof.
  intros (Ho & _ & x & l & Hk & ->)%kr_pop_spec. unfold kr_get. rewrite Hk, Ho. cbn [kr_oldest kr_keys].
  destruct (N.leb_spec (o + 1) v) as [H1|H1]; [|done]. destruct (N.leb_spec o v) as [H|H]; [|lia].
  replace (N.to_nat (v - o)) with (S (N.to_nat (v - (o + 1)))) by lia. done.
Qed.
Lemma kr_pop_newest r o r' : kr_pop MAX r o = Some r' → (2 ≤ length (kr_keys r))%nat → kr_newest r' = kr_newest r.
Proof.
  intros (Ho & _ & x & l & Hk & ->)%kr_pop_spec. unfold kr_newest. rewrite Hk. cbn [kr_oldest kr_keys length]. lia.
Qed.
Lemma kr_pop_length r o r' : kr_pop MAX r o = Some r' → S (length (kr_keys r')) = length (kr_keys r).
Proof. intros (Ho & _ & x & l & Hk & ->)%kr_pop_spec. by rewrite Hk. Qed.
Lemma kr_pop_ok r : (MAX ≤ length (kr_keys r))%nat → (1 ≤ length (kr_keys r))%nat → is_Some (kr_pop MAX r (kr_oldest r)).
Proof.
  intros H1 H2. unfold kr_pop. rewrite bool_decide_false by lia. rewrite N.eqb_refl. cbn [negb].
  destruct (kr_keys r); [cbn in *; lia|done].
Qed.
Lemma current_ratchet_some n : is_Some (kr_get (n_ring n) (n_latest n)) → current_ratchet n = Some (n_latest n).
Proof. intros [k Hk]. unfold current_ratchet. by rewrite Hk, Hk. Qed.

(** ** One end *)
Definition is_a2b (v : N) (m : rmsg) : Prop := ∃ c l me, m = AliceToBob c l me ∧ me ≤ l ∧ l ≤ v.
Definition trig_ok (v : N) (t : trigger) : Prop :=
  match t with TNone => True | TMeta m | TCtor _ m => m ≤ v | TGot _ m l | TReady _ m l => m ≤ l ∧ l ≤ v end.
Definition pending (t : trigger) : Prop := match t with TMeta _ | TCtor _ _ | TGot _ _ _ => True | _ => False end.
(** how many more stale messages may come from this end within the present round of the other *)
Definition pot (n : node) : N :=
  (match n_trig n with TReady _ _ _ => 1 | _ => 0 end) + (if n_declared n <=? n_latest n then 1 else 0).

Record base (v : N) (n : node) : Prop := {
  b_latest : n_latest n = v;
  b_meta : n_meta n = v;
  b_declared : n_declared n = v ∨ n_declared n = v + 1;
  b_trig : trig_ok v (n_trig n);
  b_pend : pending (n_trig n) → n_declared n = v }.
Record own (v : N) (n : node) (q : list rmsg) : Prop := {
  o_base : base v n;
  o_msgs : Forall (is_a2b v) q;
  o_sent : ∀ q1 q2 c me, q = q1 ++ AliceToBob c v me :: q2 →
    q2 = [] ∧ n_trig n = TNone ∧ n_declared n = v + 1 ∧ n_toggle n = true ∧ (me = v → n_ctors n !! (v + 1) = Some c);
  o_ready : ∀ c m, n_trig n = TReady c m v →
    n_declared n = v + 1 ∧ n_toggle n = true ∧ (m = v → n_ctors n !! (v + 1) = Some c) }.
Record xst (v : N) (n : node) : Prop := {
  x_latest : n_latest n = v;
  x_meta : n_meta n = v;
  x_declared : n_declared n = v + 1;
  x_trig : n_trig n = TNone }.

(** what the pieces of a trigger leave alone *)
Definition same_but_trigger (n n' : node) : Prop :=
  n_initiator n' = n_initiator n ∧ n_ring n' = n_ring n ∧ n_role n' = n_role n ∧ n_stale n' = n_stale n.

(** the pieces of a trigger: the node after, and what it sends *)
Inductive piece (n : node) : node → list rmsg → Prop :=
| p_start p : piece n (trigger_start n p) []
| p_give_up : piece n (trigger_give_up n) []
| p_construct c : piece n (trigger_constructor n c) []
| p_latest : piece n (trigger_latest n) []
| p_declare : piece n (trigger_declare n) []
| p_send : piece n (trigger_send n).1 (trigger_send n).2.

Lemma piece_same n n' out : piece n n' out → same_but_trigger n n'.
Proof.
  intros [p| |c| | |]; unfold trigger_start, trigger_give_up, trigger_constructor, trigger_latest, trigger_declare, trigger_send;
    destruct (n_trig n) as [|m|c0 m|c0 m l|c0 m l]; try done; cbn; repeat case_match; done.
Qed.
Lemma piece_xst v n n' out : xst v n → piece n n' out → n' = n ∧ out = [].
Proof.
  intros [H1 H2 H3 H4] [p| |c| | |]; unfold trigger_start, trigger_give_up, trigger_constructor, trigger_latest, trigger_declare, trigger_send;
    rewrite H4; try done.
  rewrite H1, H3. destruct (N.ltb_spec v (v + 1)); [done|lia].
Qed.

Lemma piece_base v n n' out :
  base v n → piece n n' out → base v n' ∧ Forall (is_a2b v) out ∧ pot n' + N.of_nat (length out) = pot n.
Proof.
  intros [H1 H2 H3 H4 H5] [p| |c| | |];
    unfold trigger_start, trigger_give_up, trigger_constructor, trigger_latest, trigger_declare, trigger_send, pot;
    destruct (n_trig n) as [|m|c0 m|c0 m l|c0 m l] eqn:Et; cbn [fst snd]; try (split_and!; [constructor; rewrite ?Et; done|done|rewrite ?Et; cbn [length]; lia]);
    cbn [trig_ok pending] in *.
  - destruct (N.ltb_spec (n_latest n) (n_declared n)) as [Hd|Hd];
      [split_and!; [constructor; rewrite ?Et; done|done|rewrite ?Et; cbn [length]; lia]|].
    case_match; [split_and!; [constructor; rewrite ?Et; done|done|rewrite ?Et; cbn [length]; lia]|].
    split_and!; [|done|cbn; lia]. constructor; cbn; [done|done|done|lia|lia].
  - case_match; (split_and!; [|done|cbn; rewrite ?Et; lia]); constructor; cbn; rewrite ?Et; cbn; done || lia.
  - specialize (H5 I). destruct (n_toggle n); [|destruct (current_ratchet n)];
      (split_and!; [|done|cbn; lia]); constructor; cbn; done || lia.
  - specialize (H5 I). split_and!; [|done|cbn; lia]. constructor; cbn; done || lia.
  - specialize (H5 I). cbn. rewrite H1. destruct (N.eqb_spec l v) as [->|Hl]; cbn.
    + split_and!; [|done|]. { constructor; cbn; done || lia. }
      rewrite H1, H5. destruct (N.leb_spec (v + 1) v), (N.leb_spec v v); lia.
    + split_and!; [|done|]. { constructor; cbn; done || lia. }
      rewrite H1, H5. destruct (N.leb_spec v v); lia.
  - cbn. split_and!; [constructor; cbn; done|constructor; [by exists c0, l, m|constructor]|lia].
Qed.

Lemma piece_own v n n' out q :
  own v n q → piece n n' out → own v n' (q ++ out).
Proof.
  intros Ho Hp. destruct (piece_base _ _ _ _ (o_base _ _ _ Ho) Hp) as (Hb' & Hm' & _).
  destruct Ho as [[H1 H2 H3 H4 H5] Hm Hs Hr].
  assert (Hnil : ∀ n', base v n' → (n_declared n' = n_declared n ∨ n_declared n = v) →
    (n_trig n = TNone → n_toggle n' = n_toggle n ∧ n_ctors n' = n_ctors n ∧ n_trig n' = TNone ∧ n_declared n' = n_declared n) →
    (∀ c m, n_trig n' = TReady c m v →
       n_declared n' = v + 1 ∧ n_toggle n' = true ∧ (m = v → n_ctors n' !! (v + 1) = Some c)) →
    own v n' (q ++ [])).
  { intros n1 Hb1 Hd Ht Hr1. rewrite app_nil_r. constructor; [done|done| |done].
    intros q1 q2 c me E. destruct (Hs _ _ _ _ E) as (E1 & E2 & E3 & E4 & E5). destruct (Ht E2) as (T1 & T2 & T3 & T4).
    rewrite T1, T2, T3, T4. done. }
  assert (Hid : own v n (q ++ [])) by (rewrite app_nil_r; constructor; [constructor|..]; done).
  destruct Hp as [p| |c| | |].
  - unfold trigger_start in *. destruct (n_trig n) eqn:Et; try exact Hid.
    destruct (N.ltb_spec (n_latest n) (n_declared n)) as [Hd|Hd]; [exact Hid|].
    destruct (negb (bool_decide (n_role n = Idle)) && negb p); [exact Hid|].
    rewrite app_nil_r. constructor; [done|done| |done].
    intros q1 q2 c me E. destruct (Hs _ _ _ _ E) as (E1 & E2 & E3 & E4 & E5). lia.
  - unfold trigger_give_up in *. destruct (n_trig n) eqn:Et; try exact Hid.
    destruct (meta <? n_latest n); [|exact Hid]. apply Hnil; [done|by left|done|]. cbn. done.
  - unfold trigger_constructor in *. destruct (n_trig n) eqn:Et; try exact Hid.
    destruct (n_toggle n), (current_ratchet n); (apply Hnil; [done|by left|done|]); cbn; done.
  - unfold trigger_latest in *. destruct (n_trig n) eqn:Et; try exact Hid. apply Hnil; [done|by left|done|]. cbn. done.
  - unfold trigger_declare in *. destruct (n_trig n) as [|m|c0 m|c0 m l|c0 m l] eqn:Et; try exact Hid.
    cbn [pending] in H5. specialize (H5 I). cbn [n_latest set_toggle set_ctors set_declared] in *.
    rewrite H1 in *. destruct (N.eqb_spec l v) as [->|Hl].
    + apply Hnil; [done|by right|done|]. cbn. intros c m' [= <- <-]. split_and!; [lia|done|]. intros ->. apply lookup_insert.
    + apply Hnil; [done|by right|done|]. done.
  - unfold trigger_send in *. destruct (n_trig n) as [|m|c0 m|c0 m l|c0 m l] eqn:Et; cbn [fst snd] in *; try exact Hid.
    constructor; [done|by apply Forall_app| |done].
    intros q1 q2 c me E. destruct q2 as [|x q2' _] using rev_ind.
    + change (q ++ [AliceToBob c0 l m] = q1 ++ [AliceToBob c v me]) in E. apply app_inj_tail in E as [-> [= -> -> ->]].
      split; [done|]. split; [done|]. cbn [n_declared n_toggle n_ctors set_trig]. by apply Hr.
    + exfalso. rewrite app_comm_cons, app_assoc in E. apply app_inj_tail in E as [-> <-].
      destruct (Hs _ _ _ _ eq_refl) as (_ & E2 & _). done.
Qed.

(** ** Both ends *)
Definition short (q : list rmsg) : N := N.of_nat (length q).

Inductive inv (nd : bool → node) (out : bool → list rmsg) : Prop :=
| I0 v ring :                                   (* nobody has committed the next version *)
    start_ring MAX ring → kr_newest ring = v →
    (∀ s, n_initiator (nd s) = s) → (∀ s, n_ring (nd s) = ring) → (∀ s, own v (nd s) (out s)) →
    n_role (nd true) = Idle → n_role (nd false) ≠ Loser →
    (∀ s, n_stale (nd s) + short (out (negb s)) + pot (nd (negb s)) ≤ 2) → inv nd out
| I1 x v ring c b q1 q2 :                       (* the answering end has; its answer is on the way to x *)
    start_ring MAX ring → kr_newest ring = v →
    (∀ s, n_initiator (nd s) = s) → n_ring (nd x) = ring → n_ring (nd (negb x)) = (kr_push MAX ring (c, b)).1 →
    xst v (nd x) → n_ctors (nd x) !! (v + 1) = Some c → n_role (nd x) ≠ Loser → (x = false → n_toggle (nd x) = true) →
    out x = [] →
    base v (nd (negb x)) → n_role (nd (negb x)) = Loser →
    out (negb x) = q1 ++ BobToAlice c b v :: q2 → Forall (is_a2b v) q1 → Forall (is_a2b v) q2 →
    (x = true → ∀ c', AliceToBob c' v v ∉ q1) →
    n_stale (nd x) + short q1 + short q2 + pot (nd (negb x)) ≤ 2 → n_stale (nd (negb x)) ≤ 2 → inv nd out
| I2 x v ring ring' :                           (* both have; the answering end may finish *)
    start_ring MAX ring → kr_newest ring = v + 1 → (2 ≤ length (kr_keys ring))%nat →
    (∀ s, n_initiator (nd s) = s) → n_ring (nd x) = ring → n_ring (nd (negb x)) = ring' →
    (out x = [LoserCanFinish] ∧ ring' = ring) ∨ (∃ o, out x = [Truncate o] ∧ kr_pop MAX ring' o = Some ring) →
    xst v (nd x) → n_ctors (nd x) !! (v + 1) = None → n_role (nd x) = Leader →
    base v (nd (negb x)) → n_role (nd (negb x)) = Loser →
    Forall (is_a2b v) (out (negb x)) →
    n_stale (nd x) + short (out (negb x)) + pot (nd (negb x)) ≤ 2 → n_stale (nd (negb x)) ≤ 2 → inv nd out
| I3 x v ring q2 q3 :                           (* the answering end is finished; x may finish *)
    start_ring MAX ring → kr_newest ring = v + 1 → (2 ≤ length (kr_keys ring))%nat →
    (∀ s, n_initiator (nd s) = s) → (∀ s, n_ring (nd s) = ring) →
    xst v (nd x) → n_ctors (nd x) !! (v + 1) = None → n_role (nd x) = Leader → out x = [] →
    own (v + 1) (nd (negb x)) q3 → n_role (nd (negb x)) = Idle →
    out (negb x) = q2 ++ LeaderCanFinish (v + 1) :: q3 → Forall (is_a2b v) q2 →
    n_stale (nd x) + short q2 ≤ 2 → n_stale (nd (negb x)) = 0 → short q3 + pot (nd (negb x)) ≤ 2 → inv nd out.

Lemma inv_ext nd out nd' out' : (∀ s, nd' s = nd s) → (∀ s, out' s = out s) → inv nd out → inv nd' out'.
Proof.
  intros Hn Ho [v ring H|x v ring c b q1 q2 H|x v ring ring' H|x v ring q2 q3 H].
  - eapply I0; intros; rewrite ?Hn, ?Ho; eauto.
  - eapply (I1 _ _ x); intros; rewrite ?Hn, ?Ho; eauto.
  - eapply (I2 _ _ x); intros; rewrite ?Hn, ?Ho; eauto.
  - eapply (I3 _ _ x); intros; rewrite ?Hn, ?Ho; eauto.
Qed.

Lemma bool_cases (P : bool → Prop) s : P s → P (negb s) → ∀ t, P t.
Proof. intros H1 H2 t. by destruct s, t. Qed.
Lemma bool_either (s x : bool) : s = x ∨ s = negb x.
Proof. destruct s, x; auto. Qed.

Lemma short_app q1 q2 : short (q1 ++ q2) = short q1 + short q2.
Proof. unfold short. rewrite app_length. lia. Qed.
Lemma short_cons m q : short (m :: q) = short q + 1.
Proof. unfold short. cbn [length]. lia. Qed.

(** *** A piece of a trigger *)
Lemma inv_piece nd out s n' o :
  inv nd out → piece (nd s) n' o → inv (upd nd s n') (upd out s (out s ++ o)).
Proof.
  intros Hi Hp. destruct (piece_same _ _ _ Hp) as (Q1 & Q2 & Q3 & Q4).
  destruct Hi as [v ring R1 R2 Hin Hring Hown Hr1 Hr2 Hw
    |x v ring c b q1 q2 R1 R2 Hin Hrx Hry Hx Hcx Hrox Htx Hox Hb Hroy Hoy F1 F2 Hlive W1 W2
    |x v ring ring' R1 R2 R3 Hin Hrx Hry Hox Hx Hcx Hrox Hb Hroy F W1 W2
    |x v ring q2 q3 R1 R2 R3 Hin Hring Hx Hcx Hrox Hox Hown Hroy Hoy F W1 W2 W3].
  - destruct (piece_base _ _ _ _ (o_base _ _ _ (Hown s)) Hp) as (_ & _ & Hpot).
    eapply I0; [exact R1|exact R2| | | | | |].
    + apply (bool_cases _ s); rewrite ?upd_same, ?upd_other, ?Q1; apply Hin.
    + apply (bool_cases _ s); rewrite ?upd_same, ?upd_other, ?Q2; apply Hring.
    + apply (bool_cases _ s); rewrite ?upd_same, ?upd_other; [|apply Hown]. by eapply piece_own.
    + destruct s; [|done]. by cbn; rewrite Q3.
    + destruct s; [done|]. by cbn; rewrite Q3.
    + apply (bool_cases _ s); rewrite ?negb_involutive, ?upd_same, ?upd_other.
      * rewrite Q4. apply Hw.
      * rewrite short_app. specialize (Hw (negb s)). rewrite negb_involutive in Hw. unfold short at 2. lia.
  - destruct (bool_either s x) as [-> | ->].
    { destruct (piece_xst _ _ _ _ Hx Hp) as [-> ->]. rewrite app_nil_r.
      eapply inv_ext; [intros; apply upd_id|intros; apply upd_id|]. by eapply (I1 _ _ x). }
    destruct (piece_base _ _ _ _ Hb Hp) as (Hb' & Fo & Hpot).
    eapply (I1 _ _ x v ring c b q1 (q2 ++ o)); rewrite ?upd_same, ?upd_other'; try done.
    + apply (bool_cases _ (negb x)); rewrite ?upd_same, ?upd_other, ?Q1; apply Hin.
    + congruence.
    + congruence.
    + rewrite Hoy, <- app_assoc. done.
    + by apply Forall_app.
    + rewrite short_app. unfold short at 3. lia.
    + by rewrite Q4.
  - destruct (bool_either s x) as [-> | ->].
    { destruct (piece_xst _ _ _ _ Hx Hp) as [-> ->]. rewrite app_nil_r.
      eapply inv_ext; [intros; apply upd_id|intros; apply upd_id|]. by eapply (I2 _ _ x). }
    destruct (piece_base _ _ _ _ Hb Hp) as (Hb' & Fo & Hpot).
    eapply (I2 _ _ x v ring ring'); rewrite ?upd_same, ?upd_other'; try done.
    + apply (bool_cases _ (negb x)); rewrite ?upd_same, ?upd_other, ?Q1; apply Hin.
    + congruence.
    + congruence.
    + by apply Forall_app.
    + rewrite short_app. unfold short at 2. lia.
    + by rewrite Q4.
  - destruct (bool_either s x) as [-> | ->].
    { destruct (piece_xst _ _ _ _ Hx Hp) as [-> ->]. rewrite app_nil_r.
      eapply inv_ext; [intros; apply upd_id|intros; apply upd_id|]. by eapply (I3 _ _ x). }
    destruct (piece_base _ _ _ _ (o_base _ _ _ Hown) Hp) as (_ & _ & Hpot).
    eapply (I3 _ _ x v ring q2 (q3 ++ o)); rewrite ?upd_same, ?upd_other'; try done.
    + apply (bool_cases _ (negb x)); rewrite ?upd_same, ?upd_other, ?Q1; apply Hin.
    + apply (bool_cases _ (negb x)); rewrite ?upd_same, ?upd_other, ?Q2; apply Hring.
    + by eapply piece_own.
    + congruence.
    + rewrite Hoy, <- app_assoc. done.
    + congruence.
    + rewrite short_app. unfold short at 2. lia.
Qed.

(** *** A message *)
Lemma recv_stale v n ans c l me :
  n_latest n = v → n_meta n = v → is_Some (kr_get (n_ring n) v) → me ≤ l → l ≤ v → n_stale n ≤ 2 →
  ¬ (l = v ∧ me = v) ∨ (n_role n = Leader ∧ n_ctors n !! (v + 1) = None) →
  ∃ cs, cs !! (v + 1) = n_ctors n !! (v + 1) ∧
    receive MAX n ans (AliceToBob c l me) = (set_stale (n_stale n + 1) (set_ctors cs n), [], Continue).
Proof.
  intros H1 H2 H3 Hm Hl Hs Hor.
  assert (Hid : set_ctors (n_ctors n) n = n) by (by destruct n).
  assert (Hsk : ∀ cs, n_stale (set_ctors cs n) = n_stale n) by done.
  assert (Hlim : (MAX_STALE <=? n_stale n + 1) = false) by (unfold MAX_STALE; lia).
  unfold receive, on_message, on_alice_to_bob. rewrite current_ratchet_some by (by rewrite H1). rewrite H1, H2.
  destruct (N.eqb_spec l v) as [->|Hlv]; cbn [negb].
  - case_bool_decide as Hld; cbn [andb].
    + case_bool_decide as Hnone.
      * exists (n_ctors n). split; [done|]. unfold skip. rewrite Hid. cbn [n_stale set_stale]. by rewrite Hlim.
      * destruct (N.eqb_spec me v) as [->|Hmv]; cbn [negb].
        { exfalso. naive_solver. }
        destruct (N.ltb_spec me v); [|lia]. exists (delete (me + 1) (n_ctors n)).
        split; [apply lookup_delete_ne; lia|]. unfold skip. cbn [n_stale set_stale set_ctors]. by rewrite Hlim.
    + destruct (N.eqb_spec me v) as [->|Hmv]; cbn [negb]; [exfalso; naive_solver|].
      destruct (N.ltb_spec me v); [|lia]. exists (delete (me + 1) (n_ctors n)).
      split; [apply lookup_delete_ne; lia|]. unfold skip. cbn [n_stale set_stale set_ctors]. by rewrite Hlim.
  - destruct (N.ltb_spec l v); [|lia]. exists (delete (me + 1) (n_ctors n)).
    split; [apply lookup_delete_ne; lia|]. unfold skip. cbn [n_stale set_stale set_ctors]. by rewrite Hlim.
Qed.
(** the live message of the other end: answered, or left alone by a non-initiator that has its own on the way *)
Lemma recv_live v n ans c :
  n_latest n = v → n_meta n = v → is_Some (kr_get (n_ring n) v) →
  ¬ (n_role n = Leader ∧ n_ctors n !! (v + 1) = None) →
  receive MAX n ans (AliceToBob c v v) =
    if n_toggle n && negb (n_initiator n) then (set_role Leader (set_toggle true n), [], Continue)
    else (set_role Loser (set_ring (kr_push MAX (n_ring n) (c, ans)).1 (set_toggle true n)), [BobToAlice c ans v], Continue).
Proof.
  intros H1 H2 H3 Hor.
  unfold receive, on_message, on_alice_to_bob. rewrite current_ratchet_some by (by rewrite H1). rewrite H1, H2, N.eqb_refl.
  cbn [negb].
  destruct (bool_decide (n_role n = Leader) && bool_decide (n_ctors n !! (v + 1) = None)) eqn:E.
  { apply andb_true_iff in E as [E1%bool_decide_eq_true E2%bool_decide_eq_true]. naive_solver. }
  unfold update_as_bob. by destruct (n_toggle n && negb (n_initiator n)).
Qed.

Lemma own_mild v n q n' :
  own v n q → n_latest n' = n_latest n → n_meta n' = n_meta n → n_declared n' = n_declared n → n_trig n' = n_trig n →
  (n_toggle n = true → n_toggle n' = true) → n_ctors n' !! (v + 1) = n_ctors n !! (v + 1) → own v n' q.
Proof.
  intros [[H1 H2 H3 H4 H5] Hm Hs Hr] E1 E2 E3 E4 E5 E6. constructor; [constructor|..].
  - by rewrite E1.
  - by rewrite E2.
  - by rewrite E3.
  - by rewrite E4.
  - by rewrite E3, E4.
  - done.
  - intros q1 q2 c me Hq. destruct (Hs _ _ _ _ Hq) as (A & B & C & D & F). rewrite E3, E4, E6. split_and!; auto.
  - rewrite E4. intros c m Ht. destruct (Hr _ _ Ht) as (A & B & C). rewrite E3, E6. split_and!; auto.
Qed.
Lemma own_tail v n m q : own v n (m :: q) → own v n q.
Proof.
  intros [Hb Hm Hs Hr]. constructor; [done|by inversion Hm| |done].
  intros q1 q2 c me ->. by apply (Hs (m :: q1)).
Qed.
Lemma xst_mild v n n' :
  xst v n → n_latest n' = n_latest n → n_meta n' = n_meta n → n_declared n' = n_declared n → n_trig n' = n_trig n → xst v n'.
Proof. intros [H1 H2 H3 H4] E1 E2 E3 E4. constructor; congruence. Qed.
Lemma ring_has_newest ring : start_ring MAX ring → is_Some (kr_get ring (kr_newest ring)).
Proof. intros [H _]. by apply kr_get_newest. Qed.
Lemma ring_has_previous ring v : kr_newest ring = v + 1 → (2 ≤ length (kr_keys ring))%nat → is_Some (kr_get ring v).
Proof. unfold kr_newest. intros H1 H2. apply kr_get_some. lia. Qed.

(** an end that finishes a round *)
Lemma loser_finish_inv n ring v :
  base v n → n_ring n = ring → kr_newest ring = v + 1 → (2 ≤ length (kr_keys ring))%nat →
  ∃ n', loser_finish n = (n', [LeaderCanFinish (v + 1)], Done) ∧ own (v + 1) (complete n') [] ∧
    n_ring (complete n') = ring ∧ n_role (complete n') = Idle ∧ n_stale (complete n') = 0 ∧
    n_initiator (complete n') = n_initiator n ∧ pot (complete n') ≤ 2.
Proof.
  intros [H1 H2 H3 H4 H5] Hr Hn Hl.
  assert (Hk : is_Some (kr_get (n_ring n) (n_latest n + 1))).
  { rewrite Hr, H1, <- Hn. apply kr_get_newest. lia. }
  destruct Hk as [k Hk]. unfold loser_finish, post_alice_stage1, sync_declared_version. rewrite Hk.
  eexists. split; [cbn; by rewrite H1|]. unfold complete, new_round. cbn.
  rewrite ?H1. split_and!; try done.
  - constructor; [constructor|done| |]; cbn.
    + done.
    + done.
    + by left.
    + destruct (n_trig n); cbn in *; lia.
    + done.
    + intros q1 q2 c me E. by destruct q1.
    + intros c m E. rewrite E in H4. cbn in H4. lia.
  - unfold pot. cbn. destruct (n_trig n), (v + 1 <=? v + 1); lia.
Qed.
Lemma leader_finish_inv n ring v ans :
  xst v n → n_role n = Leader → n_ring n = ring → kr_newest ring = v + 1 → (2 ≤ length (kr_keys ring))%nat →
  ∃ n', receive MAX n ans (LeaderCanFinish (v + 1)) = (n', [], Done) ∧ own (v + 1) n' [] ∧
    n_ring n' = ring ∧ n_role n' = Idle ∧ n_stale n' = 0 ∧ n_initiator n' = n_initiator n ∧ pot n' ≤ 2.
Proof.
  intros [H1 H2 H3 H4] Hro Hr Hn Hl.
  assert (Hk : is_Some (kr_get (n_ring n) (n_latest n + 1))).
  { rewrite Hr, H1, <- Hn. apply kr_get_newest. lia. }
  destruct Hk as [k Hk]. unfold receive, on_message, on_leader_can_finish, post_alice_stage1, sync_declared_version. rewrite Hro, Hk.
  rewrite Hro. rewrite bool_decide_true by done. cbn [negb set_latest set_declared n_latest]. rewrite H1, N.eqb_refl. cbn [negb].
  eexists. split; [done|]. unfold complete, new_round. cbn.
  split_and!; try done.
  - constructor; [constructor|done| |]; cbn.
    + done.
    + done.
    + by left.
    + by rewrite H4.
    + done.
    + intros q1 q2 c me E. by destruct q1.
    + intros c m E. congruence.
  - unfold pot. cbn. rewrite H4. destruct (v + 1 <=? v + 1); lia.
Qed.

(** the answer arrives *)
Lemma recv_answer v n ans ring c b :
  start_ring MAX ring → kr_newest ring = v → n_ring n = ring →
  xst v n → n_role n ≠ Loser → n_ctors n !! (v + 1) = Some c →
  ∃ n' o, receive MAX n ans (BobToAlice c b v) = (n', o, Continue) ∧
    xst v n' ∧ n_ctors n' !! (v + 1) = None ∧ n_role n' = Leader ∧ n_initiator n' = n_initiator n ∧ n_stale n' = n_stale n ∧
    start_ring MAX (n_ring n') ∧ kr_newest (n_ring n') = v + 1 ∧ (2 ≤ length (kr_keys (n_ring n')))%nat ∧
    ((o = [LoserCanFinish] ∧ (kr_push MAX ring (c, b)).1 = n_ring n') ∨
     (∃ old, o = [Truncate old] ∧ kr_pop MAX (kr_push MAX ring (c, b)).1 old = Some (n_ring n'))).
Proof using HMAX.
  intros [L1 L2] Hn Hr [H1 H2 H3 H4] Hro Hc.
  unfold receive, on_message, on_bob_to_alice. rewrite H1, N.eqb_refl. cbn [negb].
  rewrite (bool_decide_false (n_role n = Loser)) by done. cbn [andb n_ctors set_role]. rewrite Hc, N.eqb_refl. cbn [negb].
  pose proof (kr_push_length ring (c, b)) as Hlen. pose proof (kr_push_newest ring (c, b) L1) as Hnew.
  unfold update_as_alice. cbn [n_ring set_ctors set_role]. rewrite Hr.
  destruct (kr_push MAX ring (c, b)) as [r old] eqn:Ep. cbn [fst] in *.
  assert (Hold : old = if bool_decide (MAX ≤ length (kr_keys r))%nat then Some (kr_oldest r) else None).
  { unfold kr_push in Ep. by simplify_eq. }
  case_bool_decide as Hm; subst old.
  - destruct (kr_pop_ok r) as [r' Hpop]; [done|lia|]. cbn [n_ring set_ring]. rewrite Hpop.
    pose proof (kr_pop_length _ _ _ Hpop). pose proof (kr_pop_newest _ _ _ Hpop ltac:(lia)) as Hn'.
    eexists _, _. split; [done|]. cbn. unfold start_ring. split_and!; try done; try lia; try congruence.
    + exact (lookup_delete (n_ctors n) (v + 1)).
    + right. exists (kr_oldest r). done.
  - eexists _, _. split; [done|]. cbn. unfold start_ring. split_and!; try done; try lia; try congruence.
    + exact (lookup_delete (n_ctors n) (v + 1)).
    + by left.
Qed.

Lemma inv_deliver nd out s m rest ans n' o oc :
  inv nd out → out (negb s) = m :: rest → receive MAX (nd s) ans m = (n', o, oc) →
  inv (upd nd s n') (upd (upd out (negb s) rest) s (out s ++ o)) ∧ oc ≠ Failed ∧
  n_latest n' = n_latest (nd s) + (match oc with Done => 1 | _ => 0 end).
Proof using HMAX.
  intros Hi Hm Hrec.
  set (out' := upd (upd out (negb s) rest) s (out s ++ o)).
  assert (Os : out' s = out s ++ o) by (unfold out'; apply upd_same).
  assert (Oo : out' (negb s) = rest) by (unfold out'; rewrite upd_other; apply upd_same).
  set (nd' := upd nd s n').
  assert (Ns : nd' s = n') by apply upd_same.
  assert (No : nd' (negb s) = nd (negb s)) by apply upd_other.
  clearbody out' nd'.
  destruct Hi as [v ring R1 R2 Hin Hring Hown Hr1 Hr2 Hw
    |x v ring c b q1 q2 R1 R2 Hin Hrx Hry Hx Hcx Hrox Htx Hox Hb Hroy Hoy F1 F2 Hlive W1 W2
    |x v ring ring' R1 R2 R3 Hin Hrx Hry Hox Hx Hcx Hrox Hb Hroy F W1 W2
    |x v ring q2 q3 R1 R2 R3 Hin Hring Hx Hcx Hrox Hox Hown Hroy Hoy F W1 W2 W3].
  - pose proof (o_msgs _ _ _ (Hown (negb s))) as Fm. rewrite Hm in Fm. apply Forall_cons in Fm as [(c & l & me & -> & Hme & Hl) Fr].
    pose proof (Hown s) as Hs. pose proof (Hown (negb s)) as Ho. rewrite Hm in Ho.
    pose proof (Hw s) as Ws. rewrite Hm, short_cons in Ws.
    pose proof (Hw (negb s)) as Wo. rewrite negb_involutive in Wo.
    assert (Hcur : is_Some (kr_get (n_ring (nd s)) v)) by (rewrite Hring, <- R2; by apply ring_has_newest).
    pose proof (b_latest _ _ (o_base _ _ _ Hs)) as B1. pose proof (b_meta _ _ (o_base _ _ _ Hs)) as B2.
    assert (Hskip : ¬ (l = v ∧ me = v) ∨ (n_role (nd s) = Leader ∧ n_ctors (nd s) !! (v + 1) = None) → inv nd' out' ∧ oc ≠ Failed ∧
      n_latest n' = n_latest (nd s) + (match oc with Done => 1 | _ => 0 end)).
    { intros Hor. destruct (recv_stale v (nd s) ans c l me) as (cs & Ecs & Erec); [done..|lia|done|].
      rewrite Erec in Hrec. injection Hrec as <- <- <-. split; [|split; [done|by rewrite N.add_0_r]]. rewrite app_nil_r in Os.
      apply (I0 nd' out' v ring); [done|done| | | | | |].
      - apply (bool_cases _ s); rewrite ?Ns, ?No; cbn; apply Hin.
      - apply (bool_cases _ s); rewrite ?Ns, ?No; cbn; apply Hring.
      - apply (bool_cases _ s); rewrite ?Ns, ?No, ?Os, ?Oo.
        + by eapply own_mild.
        + by eapply own_tail.
      - destruct s; cbn [negb] in *; [by rewrite Ns|by rewrite No].
      - destruct s; cbn [negb] in *; [by rewrite No|by rewrite Ns].
      - apply (bool_cases _ s); rewrite ?negb_involutive, ?Ns, ?No, ?Os, ?Oo.
        + cbn [n_stale set_stale]. lia.
        + exact Wo. }
    destruct (decide (l = v ∧ me = v)) as [[-> ->]|Hno]; [|by apply Hskip; left].
    destruct (decide (n_role (nd s) = Leader ∧ n_ctors (nd s) !! (v + 1) = None)) as [Hld|Hld]; [by apply Hskip; right|].
    clear Hskip. rewrite (recv_live v) in Hrec by done.
    destruct (o_sent _ _ _ Ho [] rest c v eq_refl) as (-> & S1 & S2 & S3 & S4).
    destruct (n_toggle (nd s) && negb (n_initiator (nd s))) eqn:Et; injection Hrec as <- <- <-; (split; [|split; [done|by rewrite N.add_0_r]]).
    + apply andb_true_iff in Et as [Et Es]. rewrite Hin in Es. destruct s; [done|]. cbn [negb] in *. rewrite app_nil_r in Os.
      apply (I0 nd' out' v ring); [done|done| | | | | |].
      * intros []; rewrite ?Ns, ?No; cbn; apply Hin.
      * intros []; rewrite ?Ns, ?No; cbn; apply Hring.
      * intros []; rewrite ?Ns, ?No, ?Os, ?Oo; [by eapply own_tail|by eapply own_mild].
      * by rewrite No.
      * by rewrite Ns.
      * intros []; cbn [negb]; rewrite ?Ns, ?No, ?Os, ?Oo; [exact Wo|]. cbn [n_stale set_role set_toggle]. lia.
    + destruct Ho as [[P1 P2 P3 P4 P5] _ _ _].
      apply (I1 nd' out' (negb s) v ring c ans (out s) []); rewrite ?negb_involutive, ?No, ?Ns, ?Oo, ?Os; try done.
      * apply (bool_cases _ s); rewrite ?Ns, ?No; cbn; apply Hin.
      * cbn. by rewrite Hring.
      * auto.
      * destruct s; cbn [negb]; [done|by rewrite Hr1].
      * destruct (o_base _ _ _ Hs) as [? ? ? ? ?]. by constructor.
      * apply (o_msgs _ _ _ Hs).
      * intros Hsf c' (l1 & l2 & Hin')%elem_of_list_split. destruct s; [done|].
        destruct (o_sent _ _ _ Hs l1 l2 c' v Hin') as (_ & _ & _ & Htog & _). rewrite Htog, Hin in Et. done.
      * change (pot (set_role Loser _)) with (pot (nd s)). change (short []) with 0. lia.
      * cbn [n_stale set_role set_ring set_toggle]. lia.
  - destruct (bool_either s x) as [-> | ->]; [|rewrite negb_involutive, Hox in Hm; done].
    rewrite Hoy in Hm. assert (Hcur : is_Some (kr_get (n_ring (nd x)) v)) by (rewrite Hrx, <- R2; by apply ring_has_newest).
    destruct q1 as [|m1 q1]; cbn [app] in Hm; injection Hm as <- <-.
    + destruct (recv_answer v (nd x) ans ring c b) as (n1 & o1 & Erec & X1 & X2 & X3 & X4 & X5 & X6 & X7 & X8 & X9); [done..|].
      rewrite Erec in Hrec. injection Hrec as <- <- <-.
      split; [|split; [done|rewrite (x_latest _ _ X1), (x_latest _ _ Hx); lia]]. rewrite Hox in Os. cbn [app] in Os.
      apply (I2 nd' out' x v (n_ring n1) (kr_push MAX ring (c, b)).1); rewrite ?No, ?Ns, ?Oo, ?Os; try done.
      * apply (bool_cases _ x); rewrite ?Ns, ?No, ?X4; apply Hin.
      * rewrite X5. change (short []) with 0 in W1. lia.
    + apply Forall_cons in F1 as [(c1 & l & me & -> & Hme & Hl) F1]. rewrite short_cons in W1.
      destruct Hx as [H1 H2 H3 H4].
      destruct (decide (l = v ∧ me = v)) as [[-> ->]|Hno].
      * assert (x = false) as ->. { destruct x; [|done]. exfalso. apply (Hlive eq_refl c1). by left. }
        rewrite (recv_live v) in Hrec; [|done..|naive_solver]. rewrite Htx, Hin in Hrec by done. cbn [negb andb] in Hrec.
        injection Hrec as <- <- <-. split; [|split; [done|by rewrite N.add_0_r]]. rewrite app_nil_r in Os. cbn [negb] in *.
        apply (I1 nd' out' false v ring c b q1 q2); cbn [negb]; rewrite ?No, ?Ns, ?Oo, ?Os; try done.
        { intros []; rewrite ?Ns, ?No; cbn; apply Hin. }
        cbn [n_stale set_role set_toggle]. lia.
      * destruct (recv_stale v (nd x) ans c1 l me) as (cs & Ecs & Erec); [done..|lia|by left|].
        rewrite Erec in Hrec. injection Hrec as <- <- <-. split; [|split; [done|by rewrite N.add_0_r]]. rewrite app_nil_r in Os.
        apply (I1 nd' out' x v ring c b q1 q2); rewrite ?No, ?Ns, ?Oo, ?Os; try done.
        { apply (bool_cases _ x); rewrite ?Ns, ?No; cbn; apply Hin. }
        { cbn. by rewrite Ecs. }
        { intros Hxt c' Hc'. apply (Hlive Hxt c'). by right. }
        cbn [n_stale set_stale]. lia.
  - destruct (bool_either s x) as [-> | ->].
    + assert (Hcur : is_Some (kr_get (n_ring (nd x)) v)) by (rewrite Hrx; by apply ring_has_previous).
      rewrite Hm in F, W1. apply Forall_cons in F as [(c1 & l & me & -> & Hme & Hl) F]. rewrite short_cons in W1.
      destruct Hx as [H1 H2 H3 H4].
      destruct (recv_stale v (nd x) ans c1 l me) as (cs & Ecs & Erec); [done..|lia|by right|].
      rewrite Erec in Hrec. injection Hrec as <- <- <-. split; [|split; [done|by rewrite N.add_0_r]]. rewrite app_nil_r in Os.
      apply (I2 nd' out' x v ring ring'); rewrite ?No, ?Ns, ?Oo, ?Os; try done.
      * apply (bool_cases _ x); rewrite ?Ns, ?No; cbn; apply Hin.
      * cbn. by rewrite Ecs.
      * cbn [n_stale set_stale]. lia.
    + rewrite negb_involutive in *.
      assert (∃ n1, n' = complete n1 ∧ oc = Done ∧ o = [LeaderCanFinish (v + 1)] ∧ rest = [] ∧ own (v + 1) (complete n1) [] ∧
        n_ring (complete n1) = ring ∧ n_role (complete n1) = Idle ∧ n_stale (complete n1) = 0 ∧
        n_initiator (complete n1) = n_initiator (nd (negb x)) ∧ pot (complete n1) ≤ 2) as (n1 & -> & -> & -> & -> & Y1 & Y2 & Y3 & Y4 & Y5 & Y6).
      { destruct Hox as [[Hox ->]|(old & Hox & Hpop)]; rewrite Hox in Hm; injection Hm as <- <-.
        - destruct (loser_finish_inv (nd (negb x)) ring v) as (n1 & E & Y); [done..|]. exists n1.
          unfold receive, on_message, on_loser_can_finish in Hrec. rewrite bool_decide_true in Hrec by done. cbn [negb] in Hrec.
          rewrite E in Hrec. injection Hrec as <- <- <-. naive_solver.
        - destruct (loser_finish_inv (set_ring ring (nd (negb x))) ring v) as (n1 & E & Y); [|done..|].
          { destruct Hb as [? ? ? ? ?]. by constructor. }
          exists n1. unfold receive, on_message, on_truncate in Hrec. rewrite bool_decide_true in Hrec by done. cbn [negb] in Hrec.
          rewrite Hry, Hpop, E in Hrec. injection Hrec as <- <- <-. cbn [n_initiator set_ring] in Y. naive_solver. }
      split; [|split; [done|by rewrite (b_latest _ _ (o_base _ _ _ Y1)), (b_latest _ _ Hb)]].
      apply (I3 nd' out' x v ring (out (negb x)) []); rewrite ?No, ?Ns, ?Oo, ?Os; try done.
      * apply (bool_cases _ x); rewrite ?Ns, ?No, ?Y5; apply Hin.
      * apply (bool_cases _ x); rewrite ?Ns, ?No; done.
      * lia.
  - destruct (bool_either s x) as [-> | ->]; [|rewrite negb_involutive, Hox in Hm; done].
    rewrite Hoy in Hm. destruct q2 as [|m1 q2]; cbn [app] in Hm; injection Hm as <- <-.
    + destruct (leader_finish_inv (nd x) ring v ans) as (n1 & Erec & Y1 & Y2 & Y3 & Y4 & Y5 & Y6); [done..|].
      rewrite Erec in Hrec. injection Hrec as <- <- <-.
      split; [|split; [done|by rewrite (b_latest _ _ (o_base _ _ _ Y1)), (x_latest _ _ Hx)]]. rewrite Hox in Os. cbn [app] in Os.
      apply (I0 nd' out' (v + 1) ring); try done.
      * apply (bool_cases _ x); rewrite ?Ns, ?No, ?Y5; apply Hin.
      * apply (bool_cases _ x); rewrite ?Ns, ?No; done.
      * apply (bool_cases _ x); rewrite ?Ns, ?No, ?Os, ?Oo; done.
      * destruct x; cbn [negb] in *; [by rewrite Ns|by rewrite No].
      * destruct x; cbn [negb] in *; [rewrite No|rewrite Ns]; congruence.
      * apply (bool_cases _ x); rewrite ?negb_involutive, ?Ns, ?No, ?Os, ?Oo; [lia|]. change (short []) with 0. lia.
    + apply Forall_cons in F as [(c1 & l & me & -> & Hme & Hl) F]. rewrite short_cons in W1.
      destruct Hx as [H1 H2 H3 H4].
      assert (Hcur : is_Some (kr_get (n_ring (nd x)) v)) by (rewrite Hring; by apply ring_has_previous).
      destruct (recv_stale v (nd x) ans c1 l me) as (cs & Ecs & Erec); [done..|lia|by right|].
      rewrite Erec in Hrec. injection Hrec as <- <- <-. split; [|split; [done|by rewrite N.add_0_r]]. rewrite app_nil_r in Os.
      apply (I3 nd' out' x v ring q2 q3); rewrite ?No, ?Ns, ?Oo, ?Os; try done.
      * apply (bool_cases _ x); rewrite ?Ns, ?No; cbn; apply Hin.
      * apply (bool_cases _ x); rewrite ?Ns, ?No; cbn; apply Hring.
      * cbn. by rewrite Ecs.
      * cbn [n_stale set_stale]. lia.
Qed.

(** *** Whole runs *)
Lemma inv_init r : start_ring MAX r → inv (w_node (world_init r)) (w_out (world_init r)).
Proof.
  intros Hr. apply (I0 _ _ (kr_newest r) r); try done.
  - intros s. constructor; [constructor; cbn; try done; by left|constructor| |].
    + intros q1 q2 c me E. by destruct q1.
    + done.
  - intros s. unfold short, pot. cbn. case_match; lia.
Qed.
Lemma inv_step w e w' ob :
  inv (w_node w) (w_out w) → prompt e → rstep MAX w e = (w', ob) →
  inv (w_node w') (w_out w') ∧ (∀ s, ob ≠ Some (s, Failed)) ∧
  ∀ s, version w' s = version w s + (if bool_decide (ob = Some (s, Done)) then 1 else 0).
Proof using HMAX.
  intros Hi Hp.
  assert (Hlat : ∀ s n' o t, piece (w_node w s) n' o → n_latest (upd (w_node w) s n' t) = n_latest (w_node w t) + 0).
  { intros s n' o t Hpc. rewrite N.add_0_r. revert t. apply (bool_cases _ s); rewrite ?upd_same, ?upd_other; [|done].
    destruct Hpc; unfold trigger_start, trigger_give_up, trigger_constructor, trigger_latest, trigger_declare, trigger_send;
      destruct (n_trig (w_node w s)); cbn [fst]; try done; repeat case_match; done. }
  unfold version.
  assert (Hnil : ∀ s n', piece (w_node w s) n' [] → inv (upd (w_node w) s n') (w_out w)).
  { intros s n' Hpc. eapply inv_ext; [done| |by apply inv_piece]. intros t. cbn. rewrite app_nil_r. by rewrite upd_id. }
  destruct e as [s p|s|s|s|s|s|s|s|s]; cbn [rstep]; [..|done|done].
  - intros [= <- <-]. split; [apply Hnil; constructor|]. split; [done|]. intros t. eapply Hlat. constructor.
  - intros [= <- <-]. split; [apply Hnil; constructor|]. split; [done|]. intros t. eapply Hlat. constructor.
  - intros [= <- <-]. split; [apply Hnil; constructor|]. split; [done|]. intros t. eapply Hlat. constructor.
  - intros [= <- <-]. split; [apply Hnil; constructor|]. split; [done|]. intros t. eapply Hlat. constructor.
  - intros [= <- <-]. split; [apply Hnil; constructor|]. split; [done|]. intros t. eapply Hlat. constructor.
  - destruct (trigger_send (w_node w s)) as [n o] eqn:E. intros [= <- <-].
    assert (Hpc : piece (w_node w s) n o).
    { replace n with (trigger_send (w_node w s)).1 by (by rewrite E). replace o with (trigger_send (w_node w s)).2 by (by rewrite E).
      constructor. }
    split; [by apply inv_piece|]. split; [done|]. intros t. by eapply Hlat.
  - destruct (w_out w (negb s)) as [|m rest] eqn:Em.
    { intros [= <- <-]. split; [done|]. split; [done|]. intros t. rewrite bool_decide_false by done. lia. }
    destruct (receive MAX (w_node w s) (w_fresh w) m) as [[n o] oc] eqn:Er. intros [= <- <-].
    destruct (inv_deliver _ _ _ _ _ _ _ _ _ Hi Em Er) as (Hi' & Hf & Hl). cbn. split; [done|]. split; [congruence|].
    apply (bool_cases _ s); rewrite ?upd_same, ?upd_other.
    + rewrite Hl. case_bool_decide as Hd; destruct oc; try congruence; by destruct Hd.
    + rewrite bool_decide_false; [lia|]. intros [= E _]; by destruct s.
Qed.
Lemma inv_run es w w' os :
  inv (w_node w) (w_out w) → Forall prompt es → rrun MAX w es = (w', os) →
  inv (w_node w') (w_out w') ∧ ∀ s, (s, Failed) ∉ os.
Proof using HMAX.
  revert w w' os. induction es as [|e es IH]; intros w w' os Hi Hp; cbn [rrun].
  { intros [= <- <-]. split; [done|]. intros s Hs. by apply elem_of_nil in Hs. }
  apply Forall_cons in Hp as [Hp Hps].
  destruct (rstep MAX w e) as [w1 ob] eqn:E1. destruct (rrun MAX w1 es) as [w2 os2] eqn:E2. intros [= <- <-].
  destruct (inv_step _ _ _ _ Hi Hp E1) as (Hi1 & Hf1 & _). destruct (IH _ _ _ Hi1 Hps E2) as [Hi2 Hf2].
  split; [done|]. intros s. destruct ob as [[s' oc]|]; [|apply Hf2]. intros [E|Hs]%elem_of_cons; [|by apply (Hf2 s)].
  apply (Hf1 s). congruence.
Qed.

(** ** What the invariant gives *)
Lemma kr_get_push_inv r x v k k' : kr_get r v = Some k → kr_get (kr_push MAX r x).1 v = Some k' → k = k'.
Proof. intros H1 H2. rewrite (kr_push_get _ _ _ _ H1) in H2. congruence. Qed.

(** the ring of [x] is within the ring of the other end, and both hold what either uses *)
Lemma inv_shape nd out :
  inv nd out → ∃ x, (∀ v k k', kr_get (n_ring (nd x)) v = Some k → kr_get (n_ring (nd (negb x))) v = Some k' → k = k') ∧
    (∀ s, ∃ k, kr_get (n_ring (nd x)) (n_latest (nd s)) = Some k ∧ kr_get (n_ring (nd (negb x))) (n_latest (nd s)) = Some k) ∧
    n_latest (nd x) ≤ n_latest (nd (negb x)) ≤ n_latest (nd x) + 1.
Proof using HMAX.
  intros [v ring R1 R2 Hin Hring Hown Hr1 Hr2 Hw
    |x v ring c b q1 q2 R1 R2 Hin Hrx Hry Hx Hcx Hrox Htx Hox Hb Hroy Hoy F1 F2 Hlive W1 W2
    |x v ring ring' R1 R2 R3 Hin Hrx Hry Hox Hx Hcx Hrox Hb Hroy F W1 W2
    |x v ring q2 q3 R1 R2 R3 Hin Hring Hx Hcx Hrox Hox Hown Hroy Hoy F W1 W2 W3].
  - exists true. assert (Hl : ∀ s, n_latest (nd s) = v) by (intros s; apply (b_latest _ _ (o_base _ _ _ (Hown s)))).
    rewrite !Hring. split_and!; [congruence| |rewrite !Hl; lia|rewrite !Hl; lia].
    intros s. rewrite Hl. destruct (ring_has_newest ring R1) as [k Hk]. exists k. by rewrite <- R2.
  - exists x. rewrite Hrx, Hry. destruct Hx as [H1 _ _ _]. destruct Hb as [B1 _ _ _ _]. split_and!; [|  |lia|lia].
    + intros u k k'. apply kr_get_push_inv.
    + destruct (ring_has_newest ring R1) as [k Hk]. rewrite R2 in Hk.
      apply (bool_cases _ x); rewrite ?H1, ?B1; exists k; (split; [done|by apply kr_push_get]).
  - exists x. rewrite Hrx, Hry. destruct Hx as [H1 _ _ _]. destruct Hb as [B1 _ _ _ _].
    assert (Hsub : ∀ u k, kr_get ring u = Some k → kr_get ring' u = Some k).
    { intros u k Hk. destruct Hox as [[_ ->]|(old & _ & Hpop)]; [done|]. by eapply kr_pop_get_inv. }
    split_and!; [|  |lia|lia].
    + intros u k k' Hk Hk'. apply Hsub in Hk. congruence.
    + destruct (ring_has_previous ring v R2 R3) as [k Hk].
      apply (bool_cases _ x); rewrite ?H1, ?B1; exists k; (split; [done|by apply Hsub]).
  - exists x. rewrite !Hring. destruct Hx as [H1 _ _ _]. destruct Hown as [[B1 _ _ _ _] _ _ _].
    split_and!; [congruence| |lia|lia].
    destruct (ring_has_previous ring v R2 R3) as [k Hk]. destruct (ring_has_newest ring R1) as [k2 Hk2]. rewrite R2 in Hk2.
    apply (bool_cases _ x); rewrite ?H1, ?B1; eauto.
Qed.
Lemma inv_idle nd out :
  inv nd out → (∀ s, n_role (nd s) = Idle) →
  n_latest (nd true) = n_latest (nd false) ∧ n_ring (nd true) = n_ring (nd false) ∧ kr_newest (n_ring (nd true)) = n_latest (nd true).
Proof.
  intros [v ring R1 R2 Hin Hring Hown Hr1 Hr2 Hw
    |x v ring c b q1 q2 R1 R2 Hin Hrx Hry Hx Hcx Hrox Htx Hox Hb Hroy Hoy F1 F2 Hlive W1 W2
    |x v ring ring' R1 R2 R3 Hin Hrx Hry Hox Hx Hcx Hrox Hb Hroy F W1 W2
    |x v ring q2 q3 R1 R2 R3 Hin Hring Hx Hcx Hrox Hox Hown Hroy Hoy F W1 W2 W3] Hr; [|rewrite Hr in *; done..].
  assert (Hl : ∀ s, n_latest (nd s) = v) by (intros s; apply (b_latest _ _ (o_base _ _ _ (Hown s)))).
  by rewrite !Hl, !Hring.
Qed.

(** ** Keys are never replaced (whatever times out) *)
Definition ring_le (r r' : keyring) : Prop :=
  kr_oldest r ≤ kr_oldest r' ∧
  kr_oldest r + N.of_nat (length (kr_keys r)) ≤ kr_oldest r' + N.of_nat (length (kr_keys r')) ∧
  ∀ v k k', kr_get r v = Some k → kr_get r' v = Some k' → k = k'.
Lemma ring_le_refl r : ring_le r r.
Proof. split_and!; [lia|lia|congruence]. Qed.
Lemma ring_le_trans r1 r2 r3 : ring_le r1 r2 → ring_le r2 r3 → ring_le r1 r3.
Proof.
  intros (A1 & B1 & C1) (A2 & B2 & C2). split_and!; [lia|lia|]. intros v k k' H1 H2.
  assert (is_Some (kr_get r2 v)) as [k2 H3].
  { apply kr_get_some. pose proof (proj1 (kr_get_some r1 v) (mk_is_Some _ _ H1)). pose proof (proj1 (kr_get_some r3 v) (mk_is_Some _ _ H2)). lia. }
  transitivity k2; eauto.
Qed.
Lemma ring_le_push r x : ring_le r (kr_push MAX r x).1.
Proof.
  split_and!; [unfold kr_push; cbn; lia|rewrite kr_push_length; unfold kr_push; cbn; lia|]. intros v k k'. apply kr_get_push_inv.
Qed.
Lemma ring_le_pop r o r' : kr_pop MAX r o = Some r' → ring_le r r'.
Proof.
  intros H. split_and!.
  - apply kr_pop_spec in H as (? & _ & ? & ? & _ & ->). cbn. lia.
  - pose proof (kr_pop_length _ _ _ H). apply kr_pop_spec in H as (? & _ & ? & ? & Hk & ->). rewrite Hk. cbn. lia.
  - intros v k k' H1 H2. rewrite (kr_pop_get_inv _ _ _ _ _ H H2) in H1. congruence.
Qed.
Lemma receive_ring_le n ans m n' o oc : receive MAX n ans m = (n', o, oc) → ring_le (n_ring n) (n_ring n').
Proof.
  unfold receive. destruct (on_message MAX n ans m) as [[n1 o1] oc1] eqn:E. intros [= <- <- <-].
  assert (H : ring_le (n_ring n) (n_ring n1)); [|by destruct oc1].
  assert (Hsk : ∀ k n2 o2 c2, n_ring k = n_ring n → skip k = (n2, o2, c2) → ring_le (n_ring n) (n_ring n2)).
  { unfold skip. intros k n2 o2 c2 Hk [= <- <- <-]. cbn. rewrite Hk. apply ring_le_refl. }
  assert (Hp1 : ∀ k, n_ring (post_alice_stage1 k) = n_ring k).
  { intros k. unfold post_alice_stage1. by case_match. }
  destruct m as [c l me|c a me|v|v|]; cbn [on_message] in E.
  - unfold on_alice_to_bob, update_as_bob in E. destruct (current_ratchet n); [|simplify_eq; apply ring_le_refl].
    destruct (negb (l =? n_latest n)).
    { destruct (l <? n_latest n); [eapply Hsk; [|exact E]; done|]. simplify_eq. apply ring_le_refl. }
    destruct (_ && _); [eapply Hsk; [|exact E]; done|]. destruct (negb (me =? n_meta n)).
    { destruct (me <? n_meta n); [eapply Hsk; [|exact E]; done|]. simplify_eq. apply ring_le_refl. }
    destruct (_ && _); simplify_eq; [apply ring_le_refl|]. exact (ring_le_push (n_ring n) (c, ans)).
  - unfold on_bob_to_alice, update_as_alice in E. cbn [n_ring set_ctors set_role] in E.
    destruct (negb (me =? n_latest n)).
    { destruct (me <? n_latest n); [eapply Hsk; [|exact E]; done|]. simplify_eq. apply ring_le_refl. }
    destruct (_ && _); [eapply Hsk; [|exact E]; done|]. cbn [n_ctors set_role] in E. destruct (n_ctors n !! (me + 1)) as [c'|]; [|eapply Hsk; [|exact E]; done].
    destruct (negb (c' =? c)); [simplify_eq; apply ring_le_refl|].
    pose proof (ring_le_push (n_ring n) (c, a)) as Hpu. destruct (kr_push MAX (n_ring n) (c, a)) as [r old]. cbn [fst n_ring set_ring] in *.
    destruct old as [old|]; [|by simplify_eq]. destruct (kr_pop MAX r old) as [r'|] eqn:Ep; simplify_eq; [|done].
    cbn. eapply ring_le_trans; [done|by eapply ring_le_pop].
  - unfold on_truncate, loser_finish in E. destruct (negb _); [simplify_eq; apply ring_le_refl|].
    destruct (kr_pop MAX (n_ring n) v) as [r'|] eqn:Ep; simplify_eq; [|apply ring_le_refl]. cbn. rewrite Hp1. cbn. by eapply ring_le_pop.
  - unfold on_leader_can_finish in E. set (n0 := match n_role n with Idle => set_role Leader n | _ => n end) in E.
    assert (Hn0 : n_ring n0 = n_ring n) by (unfold n0; by destruct (n_role n)). clearbody n0.
    destruct (negb (bool_decide (n_role n0 = Leader))); [simplify_eq; rewrite Hn0; apply ring_le_refl|].
    cbv zeta in E. destruct (negb _); simplify_eq; cbn; rewrite Hp1, Hn0; apply ring_le_refl.
  - unfold on_loser_can_finish, loser_finish in E. destruct (negb _); simplify_eq; [apply ring_le_refl|]. cbn. rewrite Hp1. apply ring_le_refl.
Qed.
Lemma step_ring_le w e s : ring_le (n_ring (w_node w s)) (n_ring (w_node (rstep MAX w e).1 s)).
Proof.
  assert (Hsame : ∀ t n', n_ring n' = n_ring (w_node w t) → ring_le (n_ring (w_node w s)) (n_ring (upd (w_node w) t n' s))).
  { intros t n' Hn. unfold upd. destruct (Bool.eqb s t) eqn:E; [|apply ring_le_refl].
    apply eqb_prop in E as ->. rewrite Hn. apply ring_le_refl. }
  destruct e as [t p|t|t|t|t|t|t|t|t]; cbn [rstep].
  1-5: apply Hsame; eapply piece_same; constructor.
  - destruct (trigger_send (w_node w t)) as [n o] eqn:E. apply Hsame.
    replace n with (trigger_send (w_node w t)).1 by (by rewrite E). eapply piece_same. constructor.
  - destruct (w_out w (negb t)) as [|m rest]; [apply ring_le_refl|].
    destruct (receive MAX (w_node w t) (w_fresh w) m) as [[n o] oc] eqn:E. cbn. unfold upd.
    destruct (Bool.eqb s t) eqn:E2; [|apply ring_le_refl]. apply eqb_prop in E2 as ->. by eapply receive_ring_le.
  - case_bool_decide; [apply ring_le_refl|]. by apply Hsame.
  - by apply Hsame.
Qed.
Lemma run_ring_le es w s : ring_le (n_ring (w_node w s)) (n_ring (w_node (rrun MAX w es).1 s)).
Proof.
  revert w. induction es as [|e es IH]; intros w; [apply ring_le_refl|]. cbn [rrun].
  pose proof (step_ring_le w e s) as H1. destruct (rstep MAX w e) as [w1 o]. specialize (IH w1).
  destruct (rrun MAX w1 es) as [w2 os]. eapply ring_le_trans; [apply H1|apply IH].
Qed.

(** ** Nothing left to happen *)
Definition stuck (w : world) : Prop :=
  (∀ s, w_out w s = []) ∧ ∀ s, n_trig (w_node w s) = TNone ∧ n_latest (w_node w s) < n_declared (w_node w s).
Lemma stuck_step w e : stuck w → prompt e →
  (∀ s, w_node (rstep MAX w e).1 s = w_node w s) ∧ (∀ s, w_out (rstep MAX w e).1 s = w_out w s) ∧ (rstep MAX w e).2 = None.
Proof.
  intros [Ho Hn] Hp.
  assert (Hid : ∀ t n', n' = w_node w t → ∀ s, upd (w_node w) t n' s = w_node w s) by (intros t n' -> s; apply upd_id).
  destruct e as [t p|t|t|t|t|t|t|t|t]; cbn [rstep]; [..|done|done]; try (destruct (Hn t) as [Ht Hl]).
  - split_and!; [|done|done]. apply Hid. unfold trigger_start. rewrite Ht. destruct (N.ltb_spec (n_latest (w_node w t)) (n_declared (w_node w t))); [done|lia].
  - split_and!; [|done|done]. apply Hid. unfold trigger_give_up. by rewrite Ht.
  - split_and!; [|done|done]. apply Hid. unfold trigger_constructor. by rewrite Ht.
  - split_and!; [|done|done]. apply Hid. unfold trigger_latest. by rewrite Ht.
  - split_and!; [|done|done]. apply Hid. unfold trigger_declare. by rewrite Ht.
  - unfold trigger_send. rewrite Ht. split_and!; [by apply Hid| |done]. intros s. cbn. rewrite app_nil_r. apply upd_id.
  - by rewrite (Ho (negb t)).
Qed.
Lemma stuck_run es w : stuck w → Forall prompt es →
  (∀ s, w_node (rrun MAX w es).1 s = w_node w s) ∧ (∀ s, w_out (rrun MAX w es).1 s = w_out w s) ∧ (rrun MAX w es).2 = [].
Proof.
  revert w. induction es as [|e es IH]; intros w Hs Hp; [done|]. apply Forall_cons in Hp as [Hp Hps]. cbn [rrun].
  destruct (stuck_step w e Hs Hp) as (A & B & C). destruct (rstep MAX w e) as [w1 o]. cbn [fst snd] in *. subst o.
  destruct (IH w1) as (A' & B' & C'); [|done|].
  { destruct Hs as [Ho Hn]. split; [intros s; by rewrite B|]. intros s. rewrite A. apply Hn. }
  destruct (rrun MAX w1 es) as [w2 os]. cbn [fst snd] in *. split_and!; [| |done].
  - intros s. by rewrite A', A.
  - intros s. by rewrite B', B.
Qed.

(** ** A round that is left alone *)
Definition world_is (w : world) (s : bool) (n1 n2 : node) (o1 o2 : list rmsg) : Prop :=
  w_node w s = n1 ∧ w_node w (negb s) = n2 ∧ w_out w s = o1 ∧ w_out w (negb s) = o2.
Lemma world_is_flip w s n1 n2 o1 o2 : world_is w s n1 n2 o1 o2 → world_is w (negb s) n2 n1 o2 o1.
Proof. unfold world_is. rewrite negb_involutive. naive_solver. Qed.
Lemma deliver_is w s n1 n2 o1 m o2 n1' o oc :
  world_is w s n1 n2 o1 (m :: o2) → receive MAX n1 (w_fresh w) m = (n1', o, oc) →
  ∃ w', rstep MAX w (Deliver s) = (w', Some (s, oc)) ∧ world_is w' s n1' n2 (o1 ++ o) o2.
Proof.
  intros (E1 & E2 & E3 & E4) Er. eexists. split.
  { cbn [rstep]. rewrite E4, E1, Er. done. }
  unfold world_is. cbn. rewrite !upd_same, !upd_other, upd_same, E3. done.
Qed.
Lemma local_is w s e n1 n2 o1 o2 n1' :
  world_is w s n1 n2 o1 o2 →
  rstep MAX w e = (mk_world (upd (w_node w) s n1') (w_out w) (w_fresh (rstep MAX w e).1), None) →
  ∃ w', rstep MAX w e = (w', None) ∧ world_is w' s n1' n2 o1 o2.
Proof.
  intros (E1 & E2 & E3 & E4) Er. eexists. split; [exact Er|]. unfold world_is. cbn. by rewrite upd_same, upd_other.
Qed.
Lemma rrun_cons w e es w1 o : rstep MAX w e = (w1, o) →
  rrun MAX w (e :: es) = ((rrun MAX w1 es).1, match o with Some x => x :: (rrun MAX w1 es).2 | None => (rrun MAX w1 es).2 end).
Proof. intros E. cbn [rrun]. rewrite E. by destruct (rrun MAX w1 es). Qed.

Lemma alone w s v :
  inv (w_node w) (w_out w) → settled w → version w s = v →
  ∃ w', rrun MAX w (full_round s) = (w', [(negb s, Continue); (s, Continue); (negb s, Done); (s, Done)]) ∧
    settled w' ∧ ∀ t, version w' t = v + 1.
Proof using HMAX.
  intros Hi Hset Hv.
  assert (∃ ring, start_ring MAX ring ∧ kr_newest ring = v ∧ (∀ t, n_ring (w_node w t) = ring) ∧
    (∀ t, n_latest (w_node w t) = v ∧ n_meta (w_node w t) = v) ∧ ∀ t, n_initiator (w_node w t) = t) as (ring & R1 & R2 & R3 & R4 & R5).
  { destruct Hi as [v' ring R1 R2 Hin Hring Hown _ _ _|x|x|x]; [|exfalso; destruct (Hset (negb x)) as [Hq _]; congruence..|exfalso; destruct (Hset x) as [Hq _]; congruence].
    assert (v' = v) as ->. { unfold version in Hv. by rewrite (b_latest _ _ (o_base _ _ _ (Hown s))) in Hv. }
    exists ring. split_and!; try done. intros t. split; [apply (b_latest _ _ (o_base _ _ _ (Hown t)))|apply (b_meta _ _ (o_base _ _ _ (Hown t)))]. }
  destruct (Hset s) as (S1 & S2 & S3 & S4 & S5). destruct (Hset (negb s)) as (T1 & T2 & T3 & T4 & T5).
  destruct (R4 s) as [S6 S7]. destruct (R4 (negb s)) as [T6 T7].
  set (n0 := w_node w s) in *. set (m0 := w_node w (negb s)) in *.
  assert (W0 : world_is w s n0 m0 [] []) by done.
  assert (Hcur : current_ratchet n0 = Some v).
  { rewrite current_ratchet_some; [by rewrite S6|]. unfold n0 at 1. rewrite R3, S6, <- R2. by apply ring_has_newest. }
  (* the trigger *)
  destruct (local_is w s (Start s false) _ _ _ _ (set_trig (TMeta v) n0) W0) as (w1 & E1 & W1).
  { cbn [rstep]. f_equal. f_equal. unfold trigger_start. fold n0. rewrite S3, S5, N.ltb_irrefl, S1, S6. done. }
  pose proof W1 as (A1 & _).
  destruct (local_is w1 s (Construct s) _ _ _ _ (set_trig (TCtor (w_fresh w1) v) (set_toggle true n0)) W1) as (w2 & E2 & W2).
  { cbn [rstep]. f_equal. f_equal. unfold trigger_constructor. rewrite A1. cbn [n_trig set_trig n_toggle]. rewrite S4.
    change (current_ratchet (set_trig (TMeta v) n0)) with (current_ratchet n0). by rewrite Hcur. }
  set (c := w_fresh w1) in *. pose proof W2 as (A2 & _).
  destruct (local_is w2 s (ReadLatest s) _ _ _ _ (set_trig (TGot c v v) (set_toggle true n0)) W2) as (w3 & E3 & W3).
  { cbn [rstep]. f_equal. f_equal. unfold trigger_latest. rewrite A2. cbn. by rewrite S6. }
  pose proof W3 as (A3 & _).
  set (n4 := set_trig (TReady c v v) (set_toggle true (set_ctors (<[v + 1 := c]> (n_ctors n0)) (set_declared (v + 1) (set_trig (TGot c v v) (set_toggle true n0)))))).
  destruct (local_is w3 s (Declare s) _ _ _ _ n4 W3) as (w4 & E4 & W4).
  { cbn [rstep]. f_equal. f_equal. unfold trigger_declare. rewrite A3. cbn [n_trig set_trig n_latest set_toggle set_ctors set_declared].
    rewrite S6, N.eqb_refl. unfold n4. cbn [n_declared n_ctors set_trig set_toggle]. rewrite S5, S6. done. }
  pose proof W4 as (A4 & B4 & C4 & D4).
  assert (∃ w5, rstep MAX w4 (Send s) = (w5, None) ∧ world_is w5 s (set_trig TNone n4) m0 [AliceToBob c v v] []) as (w5 & E5 & W5).
  { cbn [rstep]. rewrite A4. cbn [trigger_send n4 n_trig set_trig]. eexists. split; [done|].
    unfold world_is. cbn [w_node w_out]. rewrite !upd_same, !upd_other, C4. done. }
  (* the messages *)
  assert (Xs : xst v (set_trig TNone n4)) by (by constructor; cbn).
  set (n5 := set_trig TNone n4) in *.
  assert (Erec : receive MAX m0 (w_fresh w5) (AliceToBob c v v) =
    (set_role Loser (set_ring (kr_push MAX ring (c, w_fresh w5)).1 (set_toggle true m0)), [BobToAlice c (w_fresh w5) v], Continue)).
  { rewrite (recv_live v); [|done|done|unfold m0; rewrite R3, <- R2; by apply ring_has_newest|rewrite T1; by intros [? _]].
    rewrite T4. cbn [andb]. change (n_ring m0) with (n_ring (w_node w (negb s))). by rewrite (R3 (negb s)). }
  set (b := w_fresh w5) in *.
  destruct (deliver_is w5 (negb s) m0 n5 [] _ [] _ _ _ (world_is_flip _ _ _ _ _ _ W5) Erec) as (w6 & E6 & W6).
  apply world_is_flip in W6. rewrite negb_involutive in W6. cbn [app] in W6.
  destruct (recv_answer v n5 (w_fresh w6) ring c b) as (n6 & o6 & Erec6 & X1 & X2 & X3 & X4 & X5 & X6 & X7 & X8 & X9); try done.
  { apply R3. }
  { cbn. by rewrite S1. }
  { apply (lookup_insert (n_ctors n0) (v + 1)). }
  destruct (deliver_is w6 s n5 _ [] _ [] _ _ _ W6 Erec6) as (w7 & E7 & W7). cbn [app] in W7.
  set (m6 := set_role Loser _) in *.
  assert (Hb6 : base v m6).
  { constructor; cbn; [done|done|left; congruence|by rewrite T3|by rewrite T3]. }
  assert (∃ msg n1, o6 = [msg] ∧ receive MAX m6 (w_fresh w7) msg = (complete n1, [LeaderCanFinish (v + 1)], Done) ∧ own (v + 1) (complete n1) [] ∧
      n_role (complete n1) = Idle ∧ n_trig (complete n1) = TNone ∧ n_declared (complete n1) = n_latest (complete n1))
    as (msg & n1 & -> & Erec8 & Y1 & Y2 & Y3 & Y4).
  { destruct X9 as [[-> Hr]|(old & -> & Hpop)].
    - destruct (loser_finish_inv m6 (n_ring n6) v) as (n1 & E & Y1 & Y2 & Y3 & Y4 & Y5 & Y6); try done.
      exists LoserCanFinish, n1. split; [done|]. split; [unfold receive, on_message, on_loser_can_finish; cbn; by rewrite E|].
      split_and!; try done.
      + unfold loser_finish in E. injection E as <-. cbn. unfold post_alice_stage1. by case_match.
      + unfold loser_finish in E. injection E as <-. done.
    - destruct (loser_finish_inv (set_ring (n_ring n6) m6) (n_ring n6) v) as (n1 & E & Y1 & Y2 & Y3 & Y4 & Y5 & Y6); try done.
      { destruct Hb6. by constructor. }
      exists (Truncate old), n1. split; [done|]. split.
      { unfold receive, on_message, on_truncate. rewrite bool_decide_true by done. cbn [negb].
        change (n_ring m6) with (kr_push MAX ring (c, b)).1. by rewrite Hpop, E. }
      split_and!; try done.
      + unfold loser_finish in E. injection E as <-. cbn. unfold post_alice_stage1. by case_match.
      + unfold loser_finish in E. injection E as <-. done. }
  destruct (deliver_is w7 (negb s) m6 n6 [] _ [] _ _ _ (world_is_flip _ _ _ _ _ _ W7) Erec8) as (w8 & E8 & W8).
  apply world_is_flip in W8. rewrite negb_involutive in W8. cbn [app] in W8.
  destruct (leader_finish_inv n6 (n_ring n6) v (w_fresh w8)) as (n9 & Erec9 & Z1 & Z2 & Z3 & Z4 & Z5 & Z6); try done.
  destruct (deliver_is w8 s n6 _ [] _ [] _ _ _ W8 Erec9) as (w9 & E9 & W9). cbn [app] in W9.
  exists w9. unfold full_round.
  rewrite (rrun_cons _ _ _ _ _ E1), (rrun_cons _ _ _ _ _ E2), (rrun_cons _ _ _ _ _ E3), (rrun_cons _ _ _ _ _ E4), (rrun_cons _ _ _ _ _ E5),
    (rrun_cons _ _ _ _ _ E6), (rrun_cons _ _ _ _ _ E7), (rrun_cons _ _ _ _ _ E8), (rrun_cons _ _ _ _ _ E9).
  destruct W9 as (F1 & F2 & F3 & F4).
  assert (Hn9 : n_trig n9 = TNone ∧ n_toggle n9 = false ∧ n_declared n9 = n_latest n9).
  { unfold receive, on_message, on_leader_can_finish in Erec9. rewrite X3 in Erec9. rewrite X3 in Erec9.
    rewrite bool_decide_true in Erec9 by done. cbn [negb] in Erec9.
    cbv zeta in Erec9. destruct (negb (_ =? v + 1)); cbv beta iota zeta in Erec9; [congruence|]. injection Erec9 as <-.
    cbn. split_and!; try done. unfold post_alice_stage1. destruct X1 as [_ _ _ X1]. by case_match. }
  split; [done|]. split.
  - unfold settled. apply (bool_cases _ s); rewrite ?F1, ?F2, ?F3, ?F4; [destruct Hn9 as (? & ? & ?)|]; split_and!; done.
  - unfold version. apply (bool_cases _ s); rewrite ?F1, ?F2; [apply (b_latest _ _ (o_base _ _ _ Z1))|apply (b_latest _ _ (o_base _ _ _ Y1))].
Qed.

(** ** Starting again after timeouts *)
Definition rooted (w : world) : Prop := ∀ s, n_initiator (w_node w s) = s ∧ n_meta (w_node w s) = n_latest (w_node w s).

Lemma receive_rooted n ans m n' o oc :
  receive MAX n ans m = (n', o, oc) → n_meta n = n_latest n →
  n_initiator n' = n_initiator n ∧ n_meta n' = n_latest n'.
Proof using.
  unfold receive. destruct (on_message MAX n ans m) as [[n1 o1] oc1] eqn:E. intros [= <- <- <-] Hm.
  assert (H : n_initiator n1 = n_initiator n ∧ (oc1 = Continue → n_meta n1 = n_meta n ∧ n_latest n1 = n_latest n)).
  { destruct m; cbn [on_message] in E;
      unfold on_alice_to_bob, on_bob_to_alice, on_truncate, on_leader_can_finish, on_loser_can_finish,
        loser_finish, skip, update_as_bob, update_as_alice, sync_declared_version, post_alice_stage1 in E;
      repeat case_match; simplify_eq; cbn; split_and!; done. }
  destruct H as [H1 H2]. destruct oc1; [|done..].
  destruct (H2 eq_refl) as [H3 H4]. by rewrite H3, H4.
Qed.
Lemma rooted_step w e : rooted w → rooted (rstep MAX w e).1.
Proof using.
  intros H.
  assert (Hu : ∀ s n, n_initiator n = s → n_meta n = n_latest n → ∀ t, n_initiator (upd (w_node w) s n t) = t ∧
             n_meta (upd (w_node w) s n t) = n_latest (upd (w_node w) s n t)).
  { intros s n H1 H2. apply (bool_cases _ s); rewrite ?upd_same, ?upd_other; [done|apply H]. }
  destruct e as [s p|s|s|s|s|s|s|s|s]; cbn [rstep]; try (cbn [fst]; unfold rooted; cbn [w_node]).
  - apply Hu; destruct (H s); unfold trigger_start; repeat case_match; done.
  - apply Hu; destruct (H s); unfold trigger_give_up; repeat case_match; done.
  - apply Hu; destruct (H s); unfold trigger_constructor; repeat case_match; done.
  - apply Hu; destruct (H s); unfold trigger_latest; repeat case_match; done.
  - apply Hu; destruct (H s); unfold trigger_declare; repeat case_match; done.
  - destruct (trigger_send (w_node w s)) as [n o] eqn:E. unfold rooted. cbn [w_node fst].
    apply Hu; destruct (H s); unfold trigger_send in E; case_match; injection E as <- <-; done.
  - destruct (w_out w (negb s)) as [|m rest]; [done|].
    destruct (receive MAX (w_node w s) (w_fresh w) m) as [[n o] oc] eqn:Er. unfold rooted. cbn [w_node fst].
    destruct (H s) as [H1 H2]. destruct (receive_rooted _ _ _ _ _ _ Er H2) as [H3 H4]. apply Hu; [congruence|done].
  - case_bool_decide; [done|]. unfold rooted. cbn [w_node fst]. destruct (H s). by apply Hu.
  - destruct (H s). by apply Hu.
Qed.
Lemma rooted_run es w : rooted w → rooted (rrun MAX w es).1.
Proof using.
  revert w. induction es as [|e es IH]; intros w H; [done|]. cbn [rrun].
  pose proof (rooted_step w e H) as H1. destruct (rstep MAX w e) as [w1 o]. cbn [fst] in H1. specialize (IH w1 H1).
  by destruct (rrun MAX w1 es).
Qed.
Lemma restored_inv w : rooted w → restored MAX w → inv (w_node w) (w_out w).
Proof using HMAX.
  intros Hro (Hset & Hring & Hst & Hv).
  set (ring := n_ring (w_node w true)) in *.
  assert (Hr : ∀ s, n_ring (w_node w s) = ring) by (by intros []).
  assert (Hl : ∀ s, n_latest (w_node w s) = kr_newest ring).
  { intros s. destruct (Hv s) as [E _]. unfold version in E. by rewrite E, Hr. }
  eapply (I0 _ _ (kr_newest ring) ring); try done.
  - intros s. apply Hro.
  - intros s. destruct (Hset s) as (S1 & S2 & S3 & S4 & S5). destruct (Hro s) as [_ Hm]. rewrite S2.
    split; [constructor|constructor|..].
    + done.
    + by rewrite Hm.
    + left. by rewrite S5.
    + by rewrite S3.
    + by rewrite S3.
    + intros q1 q2 c me E. by destruct q1.
    + intros c m E. by rewrite S3 in E.
  - apply Hset.
  - destruct (Hset false) as (-> & _). done.
  - intros s. destruct (Hv s) as [_ ->]. destruct (Hset (negb s)) as (S1 & S2 & S3 & S4 & S5).
    rewrite S2. unfold short, pot. rewrite S3, S5, N.leb_refl. cbn. lia.
Qed.
End proofs.
