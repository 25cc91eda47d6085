(** Proofs about the network read-write lock. *)
From Coq Require Import ZifyBool ZifyNat FMapPositive.
From stdpp Require Import prelude.
From Verif Require Import RwLock_Model RwLock_Spec RwLock_Abs.
Local Open Scope nat_scope.

(** ** The enumeration is closed *)
Section closed.
  Context (mx : bool) (check : astate → bool).
  Definition covered (todo : list astate) (m : aset) (a : astate) : Prop := amem a m = true ∨ a ∈ todo.

  Lemma amem_add a b m : amem a (aadd b m) = true ↔ a = b ∨ amem a m = true.
  Proof.
    unfold amem, aadd. destruct (decide (code a = code b)) as [E|E].
    - rewrite E, PositiveMap.gss, bool_decide_eq_true. rewrite elem_of_cons.
      destruct (PositiveMap.find (code b) m) as [l|]; cbn [default].
      + rewrite bool_decide_eq_true. tauto.
      + split; [intros [H|H]; [by left|by apply elem_of_nil in H]|intros [H|H]; [by left|done]].
    - rewrite PositiveMap.gso by done. split; [by right|intros [->|H]; done].
  Qed.
  Lemma amem_empty a : amem a (PositiveMap.empty _) = false.
  Proof. unfold amem. by rewrite PositiveMap.gempty. Qed.

  Definition good (st : option (list astate * aset)) : Prop :=
    match st with
    | None => True
    | Some (todo, m) =>
        ∀ a, amem a m = true → check a = true ∧ ∃ l, asucc mx a = Some l ∧ ∀ b, b ∈ l → covered todo m b
    end.
  Lemma visit_good st : good st → good (visit mx check st).
  Proof.
    destruct st as [[[|a todo] m]|]; cbn [visit good]; try done. intros H.
    destruct (amem a m) eqn:Em.
    - cbn [good]. intros b Hb. destruct (H b Hb) as (Hc & l & El & Hl). split; [done|]. exists l. split; [done|].
      intros c Hin. destruct (Hl c Hin) as [?|Hc']; [by left|]. apply elem_of_cons in Hc' as [->|?]; [by left|by right].
    - destruct (check a) eqn:Ec; [|done]. destruct (asucc mx a) as [l|] eqn:El; [|done]. cbn [good].
      intros b Hb. apply amem_add in Hb as [->|Hb].
      + split; [done|]. exists l. split; [done|]. intros c Hin. right. apply elem_of_app. by left.
      + destruct (H b Hb) as (Hc & l' & El' & Hl). split; [done|]. exists l'. split; [done|].
        intros c Hin. destruct (Hl c Hin) as [?|Hc']; [left; apply amem_add; by right|].
        apply elem_of_cons in Hc' as [->|?]; [left; apply amem_add; by left|right; apply elem_of_app; by right].
  Qed.
  Definition starts (a : astate) (st : option (list astate * aset)) : Prop :=
    match st with None => True | Some (todo, m) => covered todo m a end.
  Lemma visit_starts a st : starts a st → starts a (visit mx check st).
  Proof.
    destruct st as [[[|b todo] m]|]; cbn [visit starts]; try done. intros H.
    destruct (amem b m) eqn:Em.
    - destruct H as [?|H]; [by left|]. apply elem_of_cons in H as [->|?]; [by left|by right].
    - destruct (check b); [|done]. destruct (asucc mx b) as [l|]; [|done]. cbn [starts].
      destruct H as [?|H]; [left; apply amem_add; by right|].
      apply elem_of_cons in H as [->|?]; [left; apply amem_add; by left|right; apply elem_of_app; by right].
  Qed.
  Lemma explore_closed n a0 m :
    explore mx check n a0 = Some ([], m) →
    amem a0 m = true ∧ ∀ a, amem a m = true → check a = true ∧ ∃ l, asucc mx a = Some l ∧ ∀ b, b ∈ l → amem b m = true.
  Proof.
    intros E. unfold explore in E.
    assert (Hg : good (N.iter n (visit mx check) (Some ([a0], PositiveMap.empty _)))).
    { apply N.iter_invariant; [apply visit_good|]. cbn [good]. intros a Ha. by rewrite amem_empty in Ha. }
    assert (Hs : starts a0 (N.iter n (visit mx check) (Some ([a0], PositiveMap.empty _)))).
    { apply N.iter_invariant; [apply visit_starts|]. right. by apply elem_of_list_singleton. }
    rewrite E in Hg, Hs. cbn [good starts] in Hg, Hs. split.
    - destruct Hs as [?|Hs]; [done|by apply elem_of_nil in Hs].
    - intros a Ha. destruct (Hg a Ha) as (Hc & l & El & Hl). split; [done|]. exists l. split; [done|].
      intros b Hb. destruct (Hl b Hb) as [?|Hs']; [done|by apply elem_of_nil in Hs'].
  Qed.
End closed.

(** ** What an abstract state stands for *)
Definition rep_mode (t0 : Z) (a : amode) (m : mode) : Prop :=
  match a, m with
  | AFree, Free | ABg, Bg | AReaders, Readers | AWriter, Writer => True
  | ABgYield k, BgYield k' | ADropYield k, DropYield k' => k = k'
  | ATrying k, Trying w c t | AAcqYield k, AcqYield w c t => w = k ∧ c = k ∧ t = t0
  | ADropping k j, Dropping k' j' => k = k' ∧ j = j'
  | _, _ => False
  end.
Record rep_node (t0 : Z) (last : N) (a : anode) (n : rnode) : Prop := {
  rn_mode : rep_mode t0 (a_mode a) (r_mode n);
  rn_store : a_store a = r_store n;
  rn_rd : a_rd a = cap (r_readers n);
  rn_fresh : a_fresh a = true → r_value n = last }.
Definition rep_packet (t0 : Z) (last : N) (a : apacket) (p : packet) : Prop :=
  match a, p with
  | ATry l k, TryAcquire t k' => k = k' ∧ (l = true → t = t0)
  | AWrite f, ReleasedWrite v => f = true → v = last
  | ARead, ReleasedRead | ALock, LockAcquired | AVer, ReleasedVerified => True
  | _, _ => False
  end.
Record rep (lt : bool → Z) (last : N) (a : astate) (w : rworld) : Prop := {
  rp_bit : a_bit a = local_wins true (lt true) (lt false);
  rp_node s : rep_node (lt s) last (a_node a s) (rw_node w s);
  rp_out s : Forall2 (rep_packet (lt s) last) (a_out a s) (rw_out w s) }.

Lemma awins_spec lt a s :
  a = local_wins true (lt true) (lt false) → awins a s = local_wins s (lt s) (lt (negb s)).
Proof. intros ->. unfold awins, local_wins. destruct s; cbn [negb]; [done|]. rewrite (Z.eqb_sym (lt true)). destruct (lt false =? lt true)%Z eqn:E; lia. Qed.

Lemma a_node_set s t n a : a_node (aset_node s n a) t = if Bool.eqb t s then n else a_node a t.
Proof. by destruct s, t. Qed.
Lemma a_out_set s t l a : a_out (aset_out s l a) t = if Bool.eqb t s then l else a_out a t.
Proof. by destruct s, t. Qed.
Lemma a_node_set_out s t l a : a_node (aset_out s l a) t = a_node a t.
Proof. by destruct s, t. Qed.
Lemma a_out_set_node s t n a : a_out (aset_node s n a) t = a_out a t.
Proof. by destruct s, t. Qed.
Lemma a_bit_set_node s n a : a_bit (aset_node s n a) = a_bit a. Proof. by destruct s. Qed.
Lemma a_bit_set_out s n a : a_bit (aset_out s n a) = a_bit a. Proof. by destruct s. Qed.

Lemma rep_put lt last a w s an n aout out :
  rep lt last a w → rep_node (lt s) last an n → Forall2 (rep_packet (lt s) last) aout out →
  rep lt last (aput a s an aout) (put w s n out).
Proof.
  intros [Hb Hn Ho] Han Hao. unfold aput, put. split; cbn [rw_node rw_out].
  - by rewrite a_bit_set_out, a_bit_set_node.
  - intros t. rewrite a_node_set_out, a_node_set. unfold rupd. destruct (Bool.eqb t s) eqn:E; [|apply Hn].
    apply Bool.eqb_prop in E as ->. done.
  - intros t. rewrite a_out_set, a_out_set_node. unfold rupd. destruct (Bool.eqb t s) eqn:E; [|apply Ho].
    apply Bool.eqb_prop in E as ->. by apply Forall2_app.
Qed.
Lemma rep_put_nil lt last a w s an n :
  rep lt last a w → rep_node (lt s) last an n → rep lt last (aset_node s an a) (put w s n []).
Proof.
  intros [Hb Hn Ho] Han. unfold put. split; cbn [rw_node rw_out].
  - by rewrite a_bit_set_node.
  - intros t. rewrite a_node_set. unfold rupd. destruct (Bool.eqb t s) eqn:E; [|apply Hn].
    apply Bool.eqb_prop in E as ->. done.
  - intros t. rewrite a_out_set_node. unfold rupd. destruct (Bool.eqb t s) eqn:E; [|apply Ho].
    apply Bool.eqb_prop in E as ->. by rewrite app_nil_r.
Qed.
Lemma rep_put_same lt last a w s n :
  rep lt last a w → rep_node (lt s) last (a_node a s) n → rep lt last a (put w s n []).
Proof.
  intros H Hn. replace a with (aset_node s (a_node a s) a) by (by destruct a, s). by apply rep_put_nil.
Qed.
Lemma rep_pop lt last a w s ap arest p rest :
  rep lt last a w → a_out a s = ap :: arest → rw_out w s = p :: rest →
  rep_packet (lt s) last ap p ∧ rep lt last (aset_out s arest a) (mk_rworld (rw_node w) (rupd (rw_out w) s rest)).
Proof.
  intros [Hb Hn Ho] E1 E2. pose proof (Ho s) as H. rewrite E1, E2 in H. apply Forall2_cons in H as [Hp Hr].
  split; [done|]. split; cbn [rw_node rw_out].
  - by rewrite a_bit_set_out.
  - intros t. rewrite a_node_set_out. apply Hn.
  - intros t. rewrite a_out_set. unfold rupd. destruct (Bool.eqb t s) eqn:E; [|apply Ho].
    by apply Bool.eqb_prop in E as ->.
Qed.

Lemma cap_0 r : cap r = 0 ↔ r = 0.
Proof. destruct r as [|[|r]]; cbn; lia. Qed.
Lemma cap_1 r : cap r = 1 ↔ r = 1.
Proof. destruct r as [|[|r]]; cbn; lia. Qed.
Lemma cap_le r : cap r ≤ 2 ∧ cap r ≤ r.
Proof. destruct r as [|[|r]]; cbn; lia. Qed.
Lemma cap_S r : cap (S (cap r)) = cap (S r).
Proof. by destruct r as [|[|r]]. Qed.
Lemma cap_eqb r : (cap r =? 0) = (r =? 0).
Proof. by destruct r as [|[|r]]. Qed.
Lemma rep_held t a m : rep_mode t a m → aheld a = held_ref m.
Proof. destruct a, m; cbn; try done; intros; destruct_and?; by subst. Qed.

Lemma rep_let_go t last k a n : rep_node t last a n → rep_node t last (alet_go k a) (let_go k n).
Proof.
  intros [Hm Hs Hr Hf]. unfold alet_go, let_go. rewrite Hs, Hr, cap_eqb.
  destruct k; [destruct (r_store n || _)|]; by split.
Qed.
Lemma rep_alert t last a n : rep_node t last a n → rep_node t last a (alert n).
Proof. by intros []; split. Qed.
Lemma rep_loops t last a n : rep_node t last a n → rep_node t last a (loops n).
Proof. by intros []; split. Qed.
Lemma rep_bg_done t last k a n :
  rep_node t last a n → a_mode a = ABgYield k → rep_node t last (abg_done k a) (bg_done k n).
Proof.
  intros H Em. unfold abg_done, bg_done. destruct k; [|by apply rep_loops, rep_let_go].
  assert (E : (aarcs a =? 2) = (arcs n =? 2)).
  { destruct H as [Hm Hs Hr _]. unfold aarcs, arcs. rewrite (rep_held _ _ _ Hm), Hs, Hr.
    assert (held_ref (r_mode n) = 1) as ->. { rewrite <- (rep_held _ _ _ Hm). by rewrite Em. }
    destruct (r_store n), (r_readers n) as [|[|r]]; cbn [cap]; lia. }
  rewrite E. destruct (arcs n =? 2); apply rep_loops, rep_let_go; [|done]. by destruct H; split.
Qed.
Lemma rep_release t last k a n : rep_node t last a n → rep_packet t last (arelease k (a_fresh a)) (release k (r_value n)).
Proof. intros []. by destruct k. Qed.
Lemma rep_grant t last k a n :
  rep_node t last a n → rep_node t last (agrant k a) (grant k k n).
Proof.
  intros [Hm Hs Hr Hf]. destruct k; split; cbn [agrant grant aset_mode aset_rd aset_store set_mode set_readers set_store a_mode a_rd a_store a_fresh r_mode r_readers r_store r_value]; try done. by rewrite Hr, cap_S.
Qed.
Lemma rep_yield t t' last k a n ap p :
  rep_node t last a n → rep_packet t' last ap p →
  match ayield k a ap, yield_recv k n p with
  | Some a', Some n' => rep_node t last a' n' ∧ a_mode a' = a_mode a
  | None, None => True
  | _, _ => False
  end.
Proof.
  intros [Hm Hs Hr Hf] Hp. destruct k, ap, p; cbn in Hp |- *; try done; (split; [by split|done]).
Qed.
Lemma rep_set_mode t last am m a n : rep_node t last a n → rep_mode t am m → rep_node t last (aset_mode am a) (set_mode m n).
Proof. by intros [] ?; split. Qed.
Lemma rep_set_store t last b a n : rep_node t last a n → rep_node t last (aset_store b a) (set_store b n).
Proof. by intros []; split. Qed.

Definition is_mixed (s : bool) (n : rnode) (p : packet) : Prop :=
  ∃ want cur t t' k, r_mode n = Trying want cur t ∧ p = TryAcquire t' k ∧ k ≠ cur ∧ local_wins s t t' = false.

(** a packet read *)
Lemma rep_recv mx lt last s bit a n ap p l n' out g :
  bit = local_wins true (lt true) (lt false) → rep_node (lt s) last a n → rep_packet (lt (negb s)) last ap p →
  arecv mx bit s a ap = Some l → (mx = true ∨ ¬ is_mixed s n p) → recv s n p = Some (n', out, g) →
  ∃ a' aout, (a', aout) ∈ l ∧ rep_node (lt s) last a' n' ∧ Forall2 (rep_packet (lt s) last) aout out ∧
    (g = None ∨ aguard a' = true) ∧ ∀ k, g = Some k → k = KRead ∨ k = KWrite.
Proof.
  intros Hbit Hn Hp Ha Hmx Hr. pose proof (rn_mode _ _ _ _ Hn) as Hm. unfold recv in Hr. unfold arecv in Ha.
  assert (Hkk : ∀ k, g = Some k → k = KRead ∨ k = KWrite) by (intros []; auto).
  destruct (a_mode a) as [| |ak|ak|ak| | |ak adj|ak] eqn:Eam; destruct (r_mode n) as [| |k|want cur t|want cur t| | |want|k j|k] eqn:Em;
    cbn in Hm; try done.
  - (* Bg *)
    injection Ha as <-. apply (inj Some) in Hr.
    destruct ap as [lat ak|f| | |], p as [t k|v| | |]; cbn in Hp; try done;
      [destruct Hp as [-> Hp]|..]; injection Hr as <- <- <-; (eexists _, _; split; [by apply elem_of_list_singleton|]);
      (split; [|split; [|by split; [left|]]]); try by constructor.
    + apply rep_set_mode; [|done]. destruct k; [by apply rep_set_store|done].
    + constructor; [by apply rep_release|constructor].
    + apply rep_loops. by apply rep_set_mode.
    + apply rep_loops. by apply rep_set_mode.
    + apply rep_loops. by apply rep_set_mode.
    + apply rep_loops. by apply rep_set_mode.
  - (* BgYield *)
    subst ak. injection Ha as <-. apply (inj Some) in Hr. pose proof (rep_yield _ _ _ k _ _ _ _ Hn Hp) as Hy.
    destruct (ayield k a ap) as [a1|], (yield_recv k n p) as [n1|]; try done; injection Hr as <- <- <-;
      (eexists _, _; split; [by apply elem_of_list_singleton|]); (split; [|split; [|by split; [left|]]]); try by constructor.
    + destruct Hy as [Hy Ey]. apply rep_bg_done; [done|]. by rewrite Ey.
    + done.
  - (* Trying *)
    destruct Hm as (-> & -> & ->).
    destruct ap as [lat k|f| | |], p as [t k'|v| | |]; cbn in Hp; try done; apply (inj Some) in Hr.
    + destruct Hp as [<- Hp].
      assert (Hrd : k = KRead → ak = KRead → ∃ a' aout, (a', aout) ∈ l ∧ rep_node (lt s) last a' n' ∧
                 Forall2 (rep_packet (lt s) last) aout out ∧ (g = None ∨ aguard a' = true) ∧ (∀ k, g = Some k → k = KRead ∨ k = KWrite)).
      { intros -> ->. injection Ha as <-. injection Hr as <- <- <-. eexists _, _; split; [by apply elem_of_list_singleton|].
        split; [by apply (rep_grant _ _ KRead)|]. split; [by repeat constructor|]. split; [|done]. right. unfold aguard. cbn.
        pose proof (rn_rd _ _ _ _ Hn) as E. rewrite E. by destruct (r_readers n) as [|[|]]. }
      destruct (decide (k = KRead ∧ ak = KRead)) as [[H1 H2]|Hne]; [by apply Hrd|]. clear Hrd.
      assert (Ha' : (if negb lat then None else
              if awins bit s then Some [(agrant ak a, [ALock])]
              else if bool_decide (k = ak) then Some [(aset_mode (AAcqYield ak) a, [arelease k (a_fresh a)])]
              else if mx then None else Some []) = Some l).
      { destruct k, ak; [by destruct Hne|done..]. }
      assert (Hr' : (if local_wins s (lt s) t then (grant ak ak n, [LockAcquired], Some ak)
                   else (set_mode (AcqYield ak k (lt s)) match ak, k with KRead, KWrite => set_store false n | _, _ => n end,
                          [release k (r_value match ak, k with KRead, KWrite => set_store false n | _, _ => n end)], None)) = (n', out, g)).
      { destruct k, ak; [by destruct Hne|done..]. }
      clear Ha Hr. destruct lat; [|done]. specialize (Hp eq_refl) as ->. cbn [negb] in Ha'.
      rewrite (awins_spec lt bit s Hbit) in Ha'. destruct (local_wins s (lt s) (lt (negb s))) eqn:Ew.
      * injection Ha' as <-. injection Hr' as <- <- <-. eexists _, _; split; [by apply elem_of_list_singleton|].
        split; [by apply rep_grant|]. split; [by repeat constructor|]. split; [|done]. right.
        unfold aguard. destruct ak; cbn; [|by rewrite orb_true_r].
        pose proof (rn_rd _ _ _ _ Hn) as E. rewrite E. by destruct (r_readers n) as [|[|]].
      * case_bool_decide as Ek.
        -- subst k. injection Ha' as <-. injection Hr' as <- <- <-. eexists _, _; split; [by apply elem_of_list_singleton|].
           assert (E : match ak, ak with KRead, KWrite => set_store false n | _, _ => n end = n) by (by destruct ak). rewrite E.
           split; [by apply rep_set_mode|]. split; [constructor; [by apply rep_release|constructor]|]. by split; [left|].
        -- exfalso. destruct Hmx as [->|Hmx]; [done|]. apply Hmx. exists ak, ak, (lt s), (lt (negb s)), k. done.
    + injection Ha as <-. injection Hr as <- <- <-. eexists _, _; split; [by apply elem_of_list_singleton|].
      split. { apply (rep_grant (lt s) last ak (aset_fresh f a) (set_value v n)). destruct Hn. split; cbn; try done. }
      split; [by repeat constructor|]. split; [|done]. right. unfold aguard. destruct ak; cbn; [|by rewrite orb_true_r].
      pose proof (rn_rd _ _ _ _ Hn) as E. rewrite E. by destruct (r_readers n) as [|[|]].
    + injection Ha as <-. injection Hr as <- <- <-. eexists _, _; split; [by apply elem_of_list_singleton|].
      split; [by apply rep_grant|]. split; [by repeat constructor|]. split; [|done]. right. unfold aguard. destruct ak; cbn; [|by rewrite orb_true_r].
      pose proof (rn_rd _ _ _ _ Hn) as E. rewrite E. by destruct (r_readers n) as [|[|]].
    + injection Ha as <-. injection Hr as <- <- <-. eexists _, _; split; [by apply elem_of_list_singleton|]. split; [done|].
      split; [by repeat constructor|]. by split; [left|].
    + injection Ha as <-. injection Hr as <- <- <-. eexists _, _; split; [by apply elem_of_list_singleton|]. split; [done|].
      split; [by repeat constructor|]. by split; [left|].
  - (* AcqYield *)
    destruct Hm as (-> & -> & ->). injection Ha as <-. apply (inj Some) in Hr. pose proof (rep_yield _ _ _ ak _ _ _ _ Hn Hp) as Hy.
    destruct (ayield ak a ap) as [a1|], (yield_recv ak n p) as [n1|]; try done; injection Hr as <- <- <-;
      (eexists _, _; split; [by apply elem_of_list_singleton|]); (split; [|split; [|by split; [left|]]]); try by repeat constructor.
    + destruct Hy as [Hy Ey]. by apply rep_set_mode.
    + done.
  - (* Dropping *)
    destruct Hm as (-> & ->). injection Ha as <-. apply (inj Some) in Hr.
    destruct ap as [lat ak|f| | |], p as [t k'|v| | |]; cbn in Hp; try done.
    + injection Hr as <- <- <-. eexists _, _; split; [by apply elem_of_list_singleton|]. split; [by apply rep_set_mode|].
      split; [by repeat constructor|]. by split; [left|].
    + injection Hr as <- <- <-. eexists _, _; split; [by apply elem_of_list_singleton|]. split; [done|].
      split; [by repeat constructor|]. by split; [left|].
    + injection Hr as <- <- <-. eexists _, _; split; [by apply elem_of_list_singleton|]. split; [done|].
      split; [destruct k; by repeat constructor|]. by split; [left|].
    + injection Hr as <- <- <-. eexists _, _; split; [by apply elem_of_list_singleton|]. split; [done|].
      split; [by repeat constructor|]. by split; [left|].
    + destruct j; injection Hr as <- <- <-; (eexists _, _; split; [by apply elem_of_list_singleton|]).
      * split; [by apply rep_set_mode|]. split; [constructor; [by apply rep_release|constructor]|]. by split; [left|].
      * split; [by apply rep_alert, rep_let_go|]. split; [by repeat constructor|]. by split; [left|].
  - (* DropYield *)
    subst ak. injection Ha as <-. apply (inj Some) in Hr. pose proof (rep_yield _ _ _ k _ _ _ _ Hn Hp) as Hy.
    destruct (ayield k a ap) as [a1|], (yield_recv k n p) as [n1|]; try done; injection Hr as <- <- <-;
      (eexists _, _; split; [by apply elem_of_list_singleton|]); (split; [|split; [|by split; [left|]]]); try by repeat constructor.
    + destruct Hy as [Hy Ey]. by apply rep_alert, rep_let_go.
    + done.
Qed.

(** ** The steps *)
Definition now_last (w : rworld) (e : revent) (v : N) : N :=
  match e with Mutate s v' => match r_mode (rw_node w s) with Writer => v' | _ => v end | _ => v end.

Lemma asucc_in mx a l s :
  asucc mx a = Some l →
  (∀ b, b ∈ s_fast a s → b ∈ l) ∧ (∀ b, b ∈ s_acquire a s → b ∈ l) ∧ (∀ b, b ∈ s_bg a s → b ∈ l) ∧
  (∀ b, b ∈ s_mutate a s → b ∈ l) ∧ (∀ b, b ∈ s_drop_write a s → b ∈ l) ∧
  (∃ l1, s_drop_read a s = Some l1 ∧ ∀ b, b ∈ l1 → b ∈ l) ∧ (∃ l2, s_deliver mx a s = Some l2 ∧ ∀ b, b ∈ l2 → b ∈ l).
Proof.
  unfold asucc. intros H. destruct (asucc1 mx a true) as [lt|] eqn:Et; [|done]. destruct (asucc1 mx a false) as [lf|] eqn:Ef; [|done].
  injection H as <-.
  assert (∃ l0, asucc1 mx a s = Some l0 ∧ ∀ b, b ∈ l0 → b ∈ lt ++ lf) as (l0 & E & Hl).
  { destruct s; eexists; (split; [done|]); intros b Hb; apply elem_of_app; auto. }
  unfold asucc1 in E. destruct (s_drop_read a s) as [l1|], (s_deliver mx a s) as [l2|]; try done. injection E as <-.
  repeat split; try (intros b Hb; apply Hl; rewrite !elem_of_app; tauto);
    (eexists; split; [done|]; intros b Hb; apply Hl; rewrite !elem_of_app; tauto).
Qed.

Lemma rep_queue t last a n f :
  rep_node t last a n → (∀ x, r_mode (f x) = r_mode x ∧ r_store (f x) = r_store x ∧ r_readers (f x) = r_readers x ∧ r_value (f x) = r_value x) →
  rep_node t last a (f n).
Proof. intros [Hm Hs Hr Hf] H. destruct (H n) as (E1 & E2 & E3 & E4). split; by rewrite ?E1, ?E2, ?E3, ?E4. Qed.

Lemma rep_age lt last a w s t b :
  rep lt last a w → b = local_wins true (rupd lt s t true) (rupd lt s t false) →
  (∀ am, rep_mode (lt s) am (r_mode (rw_node w s)) → rep_mode t am (r_mode (rw_node w s))) →
  rep (rupd lt s t) last (aset_bit b (aset_out s (age <$> a_out a s) a)) w.
Proof.
  intros [Hb Hn Ho] -> Hm. split.
  - done.
  - intros u. assert (E : a_node (aset_bit (local_wins true (rupd lt s t true) (rupd lt s t false)) (aset_out s (age <$> a_out a s) a)) u = a_node a u) by (by destruct s, u).
    rewrite E. unfold rupd. destruct (Bool.eqb u s) eqn:Eu; [|apply Hn]. apply Bool.eqb_prop in Eu as ->.
    destruct (Hn s) as [H1 H2 H3 H4]. split; [by apply Hm|done..].
  - intros u. assert (E : a_out (aset_bit (local_wins true (rupd lt s t true) (rupd lt s t false)) (aset_out s (age <$> a_out a s) a)) u =
        if Bool.eqb u s then age <$> a_out a s else a_out a u) by (by destruct s, u).
    rewrite E. unfold rupd. destruct (Bool.eqb u s) eqn:Eu; [|apply Ho]. apply Bool.eqb_prop in Eu as ->.
    apply Forall2_fmap_l. eapply Forall2_impl; [apply Ho|]. intros [| | | |] [| | | |]; cbn; try done. by intros [-> _].
Qed.

Lemma sim mx lt last a w e l w' o :
  rep lt last a w → asucc mx a = Some l → (mx = true ∨ ¬ mixed w e) → rstep w e = (w', o) →
  ∃ lt' a', (a' = a ∨ a' ∈ l) ∧ rep lt' (now_last w e last) a' w' ∧
    (∀ s k v, o = Some (Granted s k v) → v = r_value (rw_node w' s) ∧ aguard (a_node a' s) = true) ∧ (∀ s, o ≠ Some (Panics s)).
Proof.
  intros HR Hl Hmx Hst.
  assert (Hsame : (w, None) = (w', o) → now_last w e last = last → ∃ lt' a', (a' = a ∨ a' ∈ l) ∧ rep lt' (now_last w e last) a' w' ∧
    (∀ s k v, o = Some (Granted s k v) → v = r_value (rw_node w' s) ∧ aguard (a_node a' s) = true) ∧ (∀ s, o ≠ Some (Panics s))).
  { intros [= <- <-] ->. exists lt, a. split; [by left|]. split; [done|]. done. }
  assert (Hkeep : ∀ s n, (put w s n [], None) = (w', o) → now_last w e last = last → rep_node (lt s) last (a_node a s) n →
    ∃ lt' a', (a' = a ∨ a' ∈ l) ∧ rep lt' (now_last w e last) a' w' ∧
    (∀ s k v, o = Some (Granted s k v) → v = r_value (rw_node w' s) ∧ aguard (a_node a' s) = true) ∧ (∀ s, o ≠ Some (Panics s))).
  { intros s n [= <- <-] -> Hn. exists lt, a. split; [by left|]. split; [by apply rep_put_same|]. done. }
  destruct e as [s k|s i|s t|s|s|s v|s|s|s]; cbn [rstep] in Hst; cbn [now_last] in *.
  - (* Call *)
    pose proof (rp_node _ _ _ _ HR s) as Hn.
    assert (Hq : ∀ k', rep_node (lt s) last (a_node a s) (alert (set_sent (r_sent (rw_node w s) ++ [k']) (rw_node w s)))).
    { intros k'. apply rep_alert. by apply (rep_queue _ _ _ _ (set_sent _)). }
    destruct k; [|by eapply Hkeep].
    destruct (r_store (rw_node w s) && _) eqn:E; [|by eapply Hkeep].
    injection Hst as <- <-.
    destruct (asucc_in mx a l s Hl) as (Hin & _).
    assert (E' : a_store (a_node a s) && (1 <? aarcs (a_node a s)) = true).
    { destruct Hn as [Hm Hs Hr _]. rewrite Hs. unfold aarcs. rewrite Hs, Hr, (rep_held _ _ _ Hm).
      unfold arcs in E. destruct (r_store (rw_node w s)), (r_readers (rw_node w s)) as [|[|]]; cbn [cap]; lia. }
    exists lt, (aput a s (aset_rd (cap (S (a_rd (a_node a s)))) (a_node a s)) []). split; [right; apply Hin; unfold s_fast; rewrite E'; by apply elem_of_list_singleton|].
    split; [apply rep_put; [done| |constructor]; destruct Hn as [Hm Hs Hr Hf]; split; try done; cbn [aset_rd set_readers a_rd r_readers]; by rewrite Hr, cap_S|].
    split; [|done]. intros s' k v [= <- <- <-]. unfold put. cbn [rw_node]. unfold rupd. rewrite Bool.eqb_reflx. split; [done|].
    unfold aput. rewrite a_node_set_out, a_node_set, Bool.eqb_reflx. unfold aguard. cbn [aset_rd a_rd].
    destruct (a_rd (a_node a s)) as [|[|]]; done.
  - (* Enqueue *)
    pose proof (rp_node _ _ _ _ HR s) as Hn. destruct (r_sent (rw_node w s) !! i) as [k|]; [|by apply Hsame].
    eapply Hkeep; [done..|]. apply (rep_queue _ _ _ (set_sent _ _) (set_queued _)); [|done]. by apply (rep_queue _ _ _ _ (set_sent _)).
  - (* Acquire *)
    pose proof (rp_node _ _ _ _ HR s) as Hn. destruct (r_mode (rw_node w s)) eqn:Em; try by apply Hsame.
    destruct (r_queued (rw_node w s)) as [|k q] eqn:Eq; [by apply Hsame|]. injection Hst as <- <-.
    pose proof (rn_mode _ _ _ _ Hn) as Ham. rewrite Em in Ham. destruct (a_mode (a_node a s)) eqn:Eam; try done.
    destruct (asucc_in mx a l s Hl) as (_ & Hin & _).
    set (b := local_wins true (rupd lt s t true) (rupd lt s t false)).
    set (a1 := aset_out s (age <$> a_out a s) a).
    assert (HR1 : rep (rupd lt s t) last (aset_bit b a1) w).
    { apply rep_age; [done|done|]. rewrite Em. by intros []. }
    exists (rupd lt s t), (aset_bit b (aput a1 s (aset_mode (ATrying k) (a_node a s)) [ATry true k])).
    split. { right. apply Hin. unfold s_acquire. rewrite Eam. apply elem_of_list_bind. exists k. split; [|by destruct k; repeat constructor].
      apply elem_of_list_bind. exists b. split; [by apply elem_of_list_singleton|destruct b; repeat constructor]. }
    split; [|by split].
    assert (E : aset_bit b (aput a1 s (aset_mode (ATrying k) (a_node a s)) [ATry true k]) = aput (aset_bit b a1) s (aset_mode (ATrying k) (a_node a s)) [ATry true k]) by (by destruct s).
    rewrite E. apply rep_put; [done| |].
    + destruct (rp_node _ _ _ _ HR1 s) as [Hm Hs Hr Hf].
      assert (E1 : a_node (aset_bit b a1) s = a_node a s) by (by destruct s). rewrite E1 in *.
      split; try done. cbn. unfold rupd. by rewrite Bool.eqb_reflx.
    + constructor; [|constructor]. cbn. unfold rupd. by rewrite Bool.eqb_reflx.
  - (* BgTry *)
    pose proof (rp_node _ _ _ _ HR s) as Hn. pose proof (rn_mode _ _ _ _ Hn) as Ham.
    assert (Hq : ∀ b, rep_node (lt s) last (a_node a s) (set_bg b (rw_node w s))) by (intros b; by apply (rep_queue _ _ _ _ (set_bg _))).
    destruct (r_bg (rw_node w s)); [|by apply Hsame].
    destruct (r_mode (rw_node w s)) eqn:Em; try (by apply Hsame); try by eapply Hkeep.
    destruct (r_queued (rw_node w s)) as [|k q] eqn:Eq; [|by eapply Hkeep]. injection Hst as <- <-.
    destruct (a_mode (a_node a s)) eqn:Eam; try done. destruct (asucc_in mx a l s Hl) as (_ & _ & Hin & _).
    eexists lt, _. split; [right; apply Hin; unfold s_bg; rewrite Eam; by apply elem_of_list_singleton|].
    split; [|by split]. apply rep_put_nil; [done|]. by apply rep_set_mode.
  - (* BgWake *)
    pose proof (rp_node _ _ _ _ HR s) as Hn. pose proof (rn_mode _ _ _ _ Hn) as Ham.
    assert (Hq : ∀ k, rep_node (lt s) last (a_node a s) (loops (set_sig k (rw_node w s)))).
    { intros k. apply rep_loops. by apply (rep_queue _ _ _ _ (set_sig _)). }
    destruct (r_sig (rw_node w s)) as [|k]; [by apply Hsame|].
    destruct (r_mode (rw_node w s)) eqn:Em; try (by apply Hsame);
      try (destruct (r_bg (rw_node w s)); [by apply Hsame|eapply Hkeep; [exact Hst|done|apply Hq]]).
    injection Hst as <- <-.
    destruct (a_mode (a_node a s)) eqn:Eam; try done. destruct (asucc_in mx a l s Hl) as (_ & _ & Hin & _).
    eexists lt, _. split; [right; apply Hin; unfold s_bg; rewrite Eam; by apply elem_of_list_singleton|].
    split; [|by split]. apply rep_put_nil; [done|]. apply rep_loops, rep_set_mode; [|done]. by apply (rep_queue _ _ _ _ (set_sig _)).
  - (* Mutate *)
    pose proof (rp_node _ _ _ _ HR s) as Hn. pose proof (rn_mode _ _ _ _ Hn) as Ham.
    destruct (r_mode (rw_node w s)) as [| | | | | | |k| |] eqn:Em; try by apply Hsame.
    + injection Hst as <- <-. destruct (a_mode (a_node a s)) eqn:Eam; try done.
      destruct (asucc_in mx a l s Hl) as (_ & _ & _ & Hin & _).
      eexists lt, _. split; [right; apply Hin; unfold s_mutate; rewrite Eam; by apply elem_of_list_singleton|].
      split; [|by split]. destruct HR as [Hb HN HO]. split.
      * done.
      * intros u. unfold put. cbn [rw_node]. unfold rupd. destruct (HN u) as [H1 H2 H3 H4].
        destruct s, u; cbn [Bool.eqb] in *; by split.
      * intros u. unfold put. cbn [rw_out].
        assert (E : rupd (rw_out w) s (rw_out w s ++ []) u = rw_out w u).
        { unfold rupd. destruct (Bool.eqb u s) eqn:Eu; [|done]. apply Bool.eqb_prop in Eu as ->. apply app_nil_r. }
        rewrite E. assert (E2 : a_out (mk_astate (a_bit a) (aset_fresh s (a_node1 a)) (aset_fresh (negb s) (a_node0 a)) (stale <$> a_out1 a) (stale <$> a_out0 a)) u = stale <$> a_out a u) by (by destruct u).
        rewrite E2. apply Forall2_fmap_l. eapply Forall2_impl; [apply HO|]. intros [| | | |] [| | | |]; cbn; done.
    + exfalso. by destruct (a_mode (a_node a s)).
  - (* DropRead *)
    pose proof (rp_node _ _ _ _ HR s) as Hn. pose proof (rn_mode _ _ _ _ Hn) as Ham.
    destruct (asucc_in mx a l s Hl) as (_ & _ & _ & _ & _ & (l1 & El1 & Hin) & _).
    assert (Hno : ∀ k, r_mode (rw_node w s) ≠ Odd k). { intros k E. rewrite E in Ham. by destruct (a_mode (a_node a s)). }
    assert (Hst' : match r_readers (rw_node w s) with
       | 0 => (w, None)
       | S r => if arcs (rw_node w s) =? 2 then
            match r_mode (rw_node w s) with
            | Readers => (put w s (set_mode (Dropping KRead false) (set_store false (set_readers r (rw_node w s)))) [ReleasedRead], None)
            | _ => (w, None)
            end
          else (put w s match r_mode (rw_node w s) with Readers => let_go KRead (alert (set_readers r (rw_node w s))) | _ => alert (set_readers r (rw_node w s)) end [], None)
       end = (w', o)).
    { destruct (r_mode (rw_node w s)) as [| | | | | | |k| |] eqn:Em; [done..| |done|done]. by destruct (Hno k). }
    clear Hst. destruct (r_readers (rw_node w s)) as [|r] eqn:Er; [by apply Hsame|].
    unfold s_drop_read in El1. pose proof (rn_rd _ _ _ _ Hn) as Erd. rewrite Er in Erd.
    pose proof (rn_store _ _ _ _ Hn) as Esto. pose proof (rep_held _ _ _ Ham) as Eh.
    assert (Hmid : ∀ ar, ar = cap r → rep lt last
       (aset_node s match a_mode (a_node a s) with AReaders => alet_go KRead (aset_rd ar (a_node a s)) | _ => aset_rd ar (a_node a s) end a)
       (put w s match r_mode (rw_node w s) with Readers => let_go KRead (alert (set_readers r (rw_node w s))) | _ => alert (set_readers r (rw_node w s)) end [])).
    { intros ar ->. apply rep_put_nil; [done|].
      assert (Hb : rep_node (lt s) last (aset_rd (cap r) (a_node a s)) (alert (set_readers r (rw_node w s)))) by (by destruct Hn; split).
      pose proof (rep_let_go _ _ KRead _ _ Hb) as Hb'.
      destruct (a_mode (a_node a s)), (r_mode (rw_node w s)); done. }
    destruct r as [|r]; cbn [cap] in Erd; rewrite Erd in El1.
    + assert (E2 : (aarcs (a_node a s) =? 2) = (arcs (rw_node w s) =? 2)).
      { unfold aarcs, arcs. by rewrite Esto, Erd, Er, Eh. }
      rewrite E2 in El1. destruct (arcs (rw_node w s) =? 2).
      * destruct (r_mode (rw_node w s)) eqn:Em; try by apply Hsame.
        destruct (a_mode (a_node a s)) eqn:Eam; try done. injection El1 as <-. injection Hst' as <- <-.
        eexists lt, _. split; [right; apply Hin; by apply elem_of_list_singleton|]. split; [|by split].
        apply rep_put; [done| |by repeat constructor]. by destruct Hn; split.
      * injection El1 as <-. injection Hst' as <- <-. eexists lt, _. split; [right; apply Hin; by apply elem_of_list_singleton|].
        split; [|by split]. by apply Hmid.
    + rewrite Esto in El1. destruct (r_store (rw_node w s)) eqn:Est; [|done].
      assert (E2 : (arcs (rw_node w s) =? 2) = false). { unfold arcs. rewrite Est, Er. destruct (held_ref _); cbn; lia. }
      rewrite E2 in Hst'. injection El1 as <-. injection Hst' as <- <-.
      destruct r as [|r].
      * eexists lt, _. split; [right; apply Hin; by left|]. split; [|by split]. by apply Hmid.
      * eexists lt, _. split; [right; apply Hin; by right; left|]. split; [|by split]. by apply Hmid.
  - (* DropWrite *)
    pose proof (rp_node _ _ _ _ HR s) as Hn. pose proof (rn_mode _ _ _ _ Hn) as Ham.
    destruct (r_mode (rw_node w s)) as [| | | | | | |k| |] eqn:Em; try by apply Hsame.
    + injection Hst as <- <-. destruct (a_mode (a_node a s)) eqn:Eam; try done.
      destruct (asucc_in mx a l s Hl) as (_ & _ & _ & _ & Hin & _).
      eexists lt, _. split; [right; apply Hin; unfold s_drop_write; rewrite Eam; by apply elem_of_list_singleton|].
      split; [|by split]. apply rep_put; [done| |].
      * by apply rep_set_mode.
      * constructor; [|constructor]. apply (rep_release _ _ KWrite _ _ Hn).
    + exfalso. by destruct (a_mode (a_node a s)).
  - (* Deliver *)
    destruct (rw_out w (negb s)) as [|p rest] eqn:Eo; [by apply Hsame|].
    destruct (recv s (rw_node w s) p) as [[[n out] g]|] eqn:Er; [|by apply Hsame]. injection Hst as <- <-.
    pose proof (rp_out _ _ _ _ HR (negb s)) as Ho. rewrite Eo in Ho. apply Forall2_cons_inv_r in Ho as (ap & arest & Hp & _ & Eao).
    destruct (asucc_in mx a l s Hl) as (_ & _ & _ & _ & _ & _ & (l2 & El2 & Hin)).
    unfold s_deliver in El2. rewrite Eao in El2. destruct (arecv mx (a_bit a) s (a_node a s) ap) as [l3|] eqn:Ea; [|done]. injection El2 as <-.
    destruct (rep_recv mx lt last s (a_bit a) (a_node a s) (rw_node w s) ap p l3 n out g) as (a' & aout & Hin' & Hn' & Ho' & Hg & _);
      [by apply HR|by apply HR|done|done| |done|].
    { destruct Hmx as [?|Hmx]; [by left|right]. intros (want & cur & t & t' & k & E1 & E2 & E3 & E4). apply Hmx.
      exists s, want, cur, t, t', k, rest. by rewrite Eo, E2. }
    destruct (rep_pop lt last a w (negb s) ap arest p rest HR Eao Eo) as [_ HR'].
    eexists lt, _. split. { right. apply Hin. apply elem_of_list_fmap. by exists (a', aout). }
    cbn [fst snd]. split; [by apply rep_put|]. split.
    + intros s' k v Eg. destruct g as [g|]; [|done]. injection Eg as <- <- <-. destruct Hg as [?|Hg]; [done|].
      unfold put. cbn [rw_node]. unfold rupd. rewrite Bool.eqb_reflx. split; [done|].
      unfold aput. by rewrite a_node_set_out, a_node_set, Bool.eqb_reflx.
    + intros s'. by destruct g.
Qed.

(** ** Runs *)
(** a set of abstract states without way out *)
Definition closed_set (mx : bool) (check : astate → bool) (m : aset) : Prop :=
  ∀ a, amem a m = true → check a = true ∧ ∃ l, asucc mx a = Some l ∧ ∀ b, b ∈ l → amem b m = true.
Definition inv (m : aset) (last : N) (w : rworld) : Prop := ∃ lt a, amem a m = true ∧ rep lt last a w.

Lemma inv_step mx check m last w e w' o :
  closed_set mx check m → inv m last w → (mx = true ∨ ¬ mixed w e) → rstep w e = (w', o) →
  inv m (now_last w e last) w' ∧
  (∀ s k v, o = Some (Granted s k v) → ∃ lt a, amem a m = true ∧ rep lt (now_last w e last) a w' ∧ v = r_value (rw_node w' s) ∧ aguard (a_node a s) = true) ∧
  ∀ s, o ≠ Some (Panics s).
Proof.
  intros Hc (lt & a & Ha & HR) Hmx Hst. destruct (Hc a Ha) as (_ & l & El & Hl).
  destruct (sim mx lt last a w e l w' o HR El Hmx Hst) as (lt' & a' & Ha' & HR' & Hg & Hp).
  assert (Hm : amem a' m = true) by (destruct Ha' as [->|Ha']; auto).
  split; [by exists lt', a'|]. split; [|done]. intros s k v E. destruct (Hg s k v E). by exists lt', a'.
Qed.
Lemma inv_run mx check m es : ∀ last w,
  closed_set mx check m → inv m last w → (mx = true ∨ unmixed w es) →
  inv m (last_written w es last) (rrun w es).1 ∧
  (∀ s, Panics s ∉ (rrun w es).2) ∧
  ∀ s k v, Granted s k v ∈ (rrun w es).2 → ∃ es' lt a w' last', amem a m = true ∧ rep lt last' a w' ∧ aguard (a_node a s) = true ∧
    (∃ e, es' ++ [e] `prefix_of` es ∧ w' = (rrun w (es' ++ [e])).1).
Proof.
  induction es as [|e es IH]; intros last w Hc Hi Hmx.
  - cbn. split; [done|]. split; [intros s H; by apply elem_of_nil in H|intros s k v H; by apply elem_of_nil in H].
  - cbn [rrun last_written]. destruct (rstep w e) as [w1 o] eqn:Es. cbn [fst].
    destruct (inv_step mx check m last w e w1 o Hc Hi) as (Hi' & Hg & Hp); [|done|].
    { destruct Hmx as [?|[? _]]; [by left|by right]. }
    destruct (IH (now_last w e last) w1 Hc Hi') as (I1 & I2 & I3).
    { destruct Hmx as [?|[_ H]]; [by left|right]. by rewrite Es in H. }
    unfold now_last in I1. destruct (rrun w1 es) as [w2 os] eqn:Er. cbn [fst snd] in *. split; [done|]. split.
    + intros s H. destruct o as [x|]; [|by apply (I2 s)]. apply elem_of_cons in H as [<-|H]; [by destruct (Hp s)|by apply (I2 s)].
    + intros s k v H. assert (Hd : o = Some (Granted s k v) ∨ Granted s k v ∈ os).
      { destruct o as [x|]; [|by right]. apply elem_of_cons in H as [<-|H]; [by left|by right]. }
      destruct Hd as [Ho|Hos].
      * destruct (Hg s k v Ho) as (lt & a & Ha & HR & _ & Hgu). exists [], lt, a, w1, (now_last w e last). do 3 (split; [done|]).
        exists e. split; [exists es; done|]. cbn. by rewrite Es.
      * destruct (I3 s k v Hos) as (es' & lt & a & w' & last' & Ha & HR & Hgu & e' & [tl Htl] & Ew).
        exists (e :: es'), lt, a, w', last'. do 3 (split; [done|]). exists e'. split; [exists tl; cbn; by rewrite Htl|].
        cbn [app rrun]. rewrite Es. by destruct (rrun w1 (es' ++ [e'])).
Qed.

Lemma rep_reading lt last a w s : rep lt last a w → (reading w s ↔ a_rd (a_node a s) ≠ 0).
Proof.
  intros HR. destruct (rp_node _ _ _ _ HR s) as [Hm _ Hr _]. unfold reading. rewrite Hr, cap_0. split.
  - intros [?|E]; [lia|]. rewrite E in Hm. by destruct (a_mode (a_node a s)).
  - intros. left. lia.
Qed.
Lemma rep_writing lt last a w s : rep lt last a w → (writing w s ↔ a_mode (a_node a s) = AWriter).
Proof.
  intros HR. destruct (rp_node _ _ _ _ HR s) as [Hm _ _ _]. unfold writing. split.
  - intros [E|E]; rewrite E in Hm; by destruct (a_mode (a_node a s)).
  - intros E. rewrite E in Hm. left. by destruct (r_mode (rw_node w s)).
Qed.
Lemma asafe_spec a s :
  asafe a = true →
  (a_mode (a_node a s) = AWriter → ∀ t, a_rd (a_node a t) = 0 ∧ (a_mode (a_node a t) = AWriter → t = s)) ∧
  (a_rd (a_node a s) ≠ 0 ∨ a_mode (a_node a s) = AWriter → a_fresh (a_node a s) = true).
Proof.
  intros H. unfold asafe in H. apply andb_true_iff in H as [H1 H2].
  assert (H : asafe1 a s = true) by (by destruct s). clear H1 H2. unfold asafe1 in H. apply andb_true_iff in H as [H1 H2]. split.
  - intros E. rewrite bool_decide_eq_true_2 in H1 by done. apply andb_true_iff in H1 as [H1 H3]. unfold aguard in H3.
    apply negb_true_iff, orb_false_iff in H3 as [H3 H4]. apply bool_decide_eq_false in H4. apply negb_false_iff in H3.
    intros t. destruct (Bool.eqb t s) eqn:Et.
    + apply Bool.eqb_prop in Et as ->. split; [lia|done].
    + assert (t = negb s) as -> by (by destruct t, s). split; [lia|intros E2; by destruct H4].
  - intros Hg. assert (aguard (a_node a s) = true) as Hg'.
    { unfold aguard. apply orb_true_iff. destruct Hg as [Hg|Hg]; [left; lia|right; by apply bool_decide_eq_true]. }
    by rewrite Hg' in H2.
Qed.
Lemma inv_safe mx m last w : closed_set mx asafe m → inv m last w →
  exclusive w ∧ ∀ s, reading w s ∨ writing w s → r_value (rw_node w s) = last.
Proof.
  intros Hc (lt & a & Ha & HR). destruct (Hc a Ha) as [Hs _]. split.
  - intros s Hw t. apply (rep_writing _ _ _ _ _ HR) in Hw. destruct (asafe_spec a s Hs) as [H _]. destruct (H Hw t) as [H1 H2]. split.
    + rewrite (rep_reading _ _ _ _ _ HR). by intros ?.
    + by rewrite (rep_writing _ _ _ _ _ HR).
  - intros s H. rewrite (rep_reading _ _ _ _ _ HR), (rep_writing _ _ _ _ _ HR) in H. destruct (asafe_spec a s Hs) as [_ H'].
    apply (rn_fresh _ _ _ _ (rp_node _ _ _ _ HR s)). by apply H'.
Qed.

Definition finishes (st : option (list astate * aset)) : bool := match st with Some ([], _) => true | _ => false end.
Lemma finishes_inv st : finishes st = true → ∃ m, st = Some ([], m).
Proof. destruct st as [[[|] m]|]; try done. by exists m. Qed.
Lemma rep_init v : rep (λ _, 0%Z) v (ainit true) (rworld_init v).
Proof. split; [done|by intros []|intros []; constructor]. Qed.

Lemma unmixed_run_from n v es :
  finishes (explore false asafe n (ainit true)) = true →
  unmixed (rworld_init v) es →
  exclusive (rrun (rworld_init v) es).1 ∧
  (∀ s, reading (rrun (rworld_init v) es).1 s ∨ writing (rrun (rworld_init v) es).1 s →
     r_value (rw_node (rrun (rworld_init v) es).1 s) = last_written (rworld_init v) es v) ∧
  no_panic (rrun (rworld_init v) es).2.
Proof.
  intros [m E]%finishes_inv Hu. destruct (explore_closed _ _ _ _ _ E) as [H0 Hc].
  assert (Hi : inv m v (rworld_init v)) by (exists (λ _, 0%Z), (ainit true); split; [done|apply rep_init]).
  destruct (inv_run false asafe m es v (rworld_init v) Hc Hi) as (I1 & I2 & _); [by right|].
  destruct (inv_safe false m _ _ Hc I1) as [J1 J2]. split; [done|]. split; [done|]. intros s. apply I2.
Qed.
Lemma reach_done : finishes (explore false asafe 12000 (ainit true)) = true.
Proof. vm_compute. reflexivity. Qed.

(** ** Dead ends: from here no guard is handed out any more *)
Lemma starved_from w last lt a n es :
  finishes (explore true anone n a) = true → rep lt last a w → starved w es.
Proof.
  intros [m E]%finishes_inv HR.
  destruct (explore_closed _ _ _ _ _ E) as [H0 Hc].
  assert (Hi : inv m last w) by (by exists lt, a).
  destruct (inv_run true anone m es last w Hc Hi) as (_ & _ & I3); [by left|].
  intros s k v Hin. destruct (I3 s k v Hin) as (_ & lt' & a' & w' & last' & Ha & _ & Hg & _).
  destruct (Hc a' Ha) as [Hn _]. unfold anone in Hn. apply andb_true_iff in Hn as [H1 H2].
  destruct s; by rewrite Hg in *.
Qed.

(** ** Runs in which only one kind of lock is asked for *)
Definition only (k : kind) (w : rworld) : Prop :=
  ∀ s, Forall (λ x, x = k) (r_sent (rw_node w s)) ∧ Forall (λ x, x = k) (r_queued (rw_node w s)) ∧
    (∀ want cur t, r_mode (rw_node w s) = Trying want cur t → cur = k) ∧
    (∀ want cur t, r_mode (rw_node w s) = AcqYield want cur t → cur = k) ∧
    Forall (λ p, match p with TryAcquire _ x => x = k | _ => True end) (rw_out w s).

Lemma only_put k w s n out :
  only k w → Forall (λ x, x = k) (r_sent n) → Forall (λ x, x = k) (r_queued n) →
  (∀ want cur t, r_mode n = Trying want cur t → cur = k) → (∀ want cur t, r_mode n = AcqYield want cur t → cur = k) →
  Forall (λ p, match p with TryAcquire _ x => x = k | _ => True end) out → only k (put w s n out).
Proof.
  intros H H1 H2 H3 H4 H5 u. unfold put. cbn [rw_node rw_out]. unfold rupd. destruct (Bool.eqb u s) eqn:E; [|apply H].
  apply Bool.eqb_prop in E as ->. do 4 (split; [done|]). apply Forall_app. split; [apply H|done].
Qed.
Lemma only_let_go j n : (r_mode (let_go j n) = Free ∨ r_mode (let_go j n) = Readers) ∧ r_sent (let_go j n) = r_sent n ∧ r_queued (let_go j n) = r_queued n.
Proof. unfold let_go. destruct j; [destruct (_ || _)|]; cbn; auto. Qed.
Lemma only_bg_done j n : (r_mode (bg_done j n) = Free ∨ r_mode (bg_done j n) = Readers) ∧ r_sent (bg_done j n) = r_sent n ∧ r_queued (bg_done j n) = r_queued n.
Proof. unfold bg_done. destruct j; [destruct (_ =? _)|]; apply only_let_go. Qed.
Lemma only_grant a b n : (∀ x y t, r_mode (grant a b n) ≠ Trying x y t ∧ r_mode (grant a b n) ≠ AcqYield x y t) ∧ r_sent (grant a b n) = r_sent n ∧ r_queued (grant a b n) = r_queued n.
Proof. by destruct a, b. Qed.
Lemma yield_keeps j n p n' : yield_recv j n p = Some n' → r_mode n' = r_mode n ∧ r_sent n' = r_sent n ∧ r_queued n' = r_queued n.
Proof. destruct j, p; cbn; try done; by intros [= <-]. Qed.

Lemma only_recv k s n p n' out g :
  Forall (λ x, x = k) (r_sent n) → Forall (λ x, x = k) (r_queued n) →
  (∀ want cur t, r_mode n = Trying want cur t → cur = k) → (∀ want cur t, r_mode n = AcqYield want cur t → cur = k) →
  match p with TryAcquire _ x => x = k | _ => True end → recv s n p = Some (n', out, g) →
  Forall (λ x, x = k) (r_sent n') ∧ Forall (λ x, x = k) (r_queued n') ∧
  (∀ want cur t, r_mode n' = Trying want cur t → cur = k) ∧ (∀ want cur t, r_mode n' = AcqYield want cur t → cur = k) ∧
  Forall (λ p, match p with TryAcquire _ x => x = k | _ => True end) out.
Proof.
  intros H1 H2 H3 H4 Hp Hr. unfold recv in Hr. destruct (r_mode n) as [| |j|want cur t|want cur t| | |want|j adj|j] eqn:Em; try done; apply (inj Some) in Hr.
  - destruct p as [t x|v| | |]; injection Hr as <- <- <-; [|by repeat split; try constructor..].
    subst x. destruct k; (repeat split; cbn; [done|done|done|done|by repeat constructor]).
  - destruct (yield_recv j n p) as [n1|] eqn:Ey; injection Hr as <- <- <-.
    + destruct (yield_keeps _ _ _ _ Ey) as (E1 & E2 & E3). destruct (only_bg_done j n1) as (Hm & E4 & E5). rewrite E4, E5, E2, E3.
      do 2 (split; [done|]). split; [|split; [|by repeat constructor]]; intros ???; destruct Hm as [-> | ->]; done.
    + repeat split; try done; rewrite Em; done.
  - destruct p as [t' x|v| | |].
    + subst x. pose proof (H3 _ _ _ eq_refl) as ->.
      destruct (only_grant want k n) as (Hg & E4 & E5).
      assert (Hgr : Forall (λ x, x = k) (r_sent (grant want k n)) ∧ Forall (λ x, x = k) (r_queued (grant want k n)) ∧
         (∀ a b t, r_mode (grant want k n) = Trying a b t → b = k) ∧ (∀ a b t, r_mode (grant want k n) = AcqYield a b t → b = k)).
      { rewrite E4, E5. do 2 (split; [done|]). split; intros a b t0 E; by destruct (Hg a b t0). }
      destruct Hgr as (G1 & G2 & G3 & G4).
      destruct k; [injection Hr as <- <- <-; by repeat split; try constructor|].
      destruct (local_wins s t t'); injection Hr as <- <- <-; [by repeat split; repeat constructor|].
      repeat split; cbn; try done; [by intros ??? [= ? <- ?]|by repeat constructor].
    + injection Hr as <- <- <-. destruct (only_grant want cur (set_value v n)) as (Hg & E4 & E5). rewrite E4, E5.
      do 2 (split; [done|]). split; [|split; [|by repeat constructor]]; intros a b t0 E; by destruct (Hg a b t0).
    + injection Hr as <- <- <-. destruct (only_grant want cur n) as (Hg & E4 & E5). rewrite E4, E5.
      do 2 (split; [done|]). split; [|split; [|by repeat constructor]]; intros a b t0 E; by destruct (Hg a b t0).
    + injection Hr as <- <- <-. repeat split; try done; rewrite Em; done.
    + injection Hr as <- <- <-. repeat split; try done; rewrite Em; done.
  - destruct (yield_recv cur n p) as [n1|] eqn:Ey; injection Hr as <- <- <-.
    + destruct (yield_keeps _ _ _ _ Ey) as (E1 & E2 & E3). cbn. rewrite E2, E3. do 2 (split; [done|]).
      split; [|split; [done|by repeat constructor]]. intros ??? [= <- <- <-]. by apply (H4 want cur t).
    + repeat split; try done; rewrite Em; done.
  - destruct p as [t x|v| | |]; try (injection Hr as <- <- <-; repeat split; try done; rewrite ?Em; cbn; try done; destruct j; by repeat constructor).
    destruct adj; injection Hr as <- <- <-.
    + repeat split; cbn; try done. destruct j; by repeat constructor.
    + destruct (only_let_go j n) as (Hm & E4 & E5). unfold alert, set_sig. cbn [r_sent r_queued r_mode]. rewrite E4, E5.
      do 2 (split; [done|]). split; [|split; [|constructor]]; intros ???; destruct Hm as [-> | ->]; done.
  - destruct (yield_recv j n p) as [n1|] eqn:Ey; injection Hr as <- <- <-.
    + destruct (yield_keeps _ _ _ _ Ey) as (E1 & E2 & E3). destruct (only_let_go j n1) as (Hm & E4 & E5).
      unfold alert, set_sig. cbn [r_sent r_queued r_mode]. rewrite E4, E5, E2, E3.
      do 2 (split; [done|]). split; [|split; [|by repeat constructor]]; intros ???; destruct Hm as [-> | ->]; done.
    + repeat split; try done; rewrite Em; done.
Qed.
Lemma only_step k w e : only k w → asks k e → only k (rstep w e).1.
Proof.
  intros H He. destruct e as [s x|s i|s t|s|s|s v|s|s|s]; cbn [rstep];
    destruct (H s) as (H1 & H2 & H3 & H4 & H5).
  - cbn in He. subst x.
    assert (Hq : only k (put w s (alert (set_sent (r_sent (rw_node w s) ++ [k]) (rw_node w s))) [])).
    { apply only_put; try done. cbn. apply Forall_app. split; [done|by constructor]. }
    destruct k; [|exact Hq]. destruct (_ && _); [|exact Hq]. by apply only_put.
  - destruct (r_sent (rw_node w s) !! i) as [x|] eqn:E; [|done]. apply only_put; try done; cbn.
    + by apply Forall_delete.
    + apply Forall_app. split; [done|]. constructor; [|constructor]. by eapply (Forall_lookup_1 _ _ _ _ H1).
  - destruct (r_mode (rw_node w s)) eqn:Em; try done. destruct (r_queued (rw_node w s)) as [|x q]; [done|].
    apply Forall_cons in H2 as [-> H2]. apply only_put; try done; cbn; [by intros ??? [= <- <- <-]|]. by repeat constructor.
  - destruct (r_bg (rw_node w s)); [|done]. destruct (r_mode (rw_node w s)) eqn:Em; try done;
      try (by apply only_put; try done; cbn; rewrite Em).
    destruct (r_queued (rw_node w s)) eqn:Eq; cbn [fst]; apply only_put; try done; cbn; rewrite ?Eq, ?Em; done.
  - destruct (r_sig (rw_node w s)) as [|j]; [done|].
    destruct (r_mode (rw_node w s)) eqn:Em; try done; destruct (r_bg (rw_node w s)); try done; cbn [fst]; apply only_put; try done; cbn; rewrite ?Em; done.
  - destruct (r_mode (rw_node w s)) as [| | | | | | |[]| |] eqn:Em; try done. cbn [fst]. apply only_put; try done; cbn; rewrite Em; done.
  - assert (Hlg : ∀ n, r_sent n = r_sent (rw_node w s) → r_queued n = r_queued (rw_node w s) → only k (put w s (let_go KRead n) [])).
    { intros n E1 E2. destruct (only_let_go KRead n) as (Hm & E4 & E5). apply only_put; try done; rewrite ?E4, ?E5, ?E1, ?E2; try done;
        intros ???; destruct Hm as [-> | ->]; done. }
    destruct (r_mode (rw_node w s)) as [| | | | | | |[]| |] eqn:Em; destruct (r_readers (rw_node w s)); try done; cbn [fst];
      try (destruct (_ =? _); cbn [fst]); try done; try (by apply Hlg); try (apply only_put; try done; cbn; rewrite ?Em; done);
      (apply only_put; try done; cbn; rewrite ?Em; try done; by repeat constructor).
  - destruct (r_mode (rw_node w s)) as [| | | | | | |[]| |] eqn:Em; try done; cbn [fst]; apply only_put; try done; cbn; by repeat constructor.
  - destruct (rw_out w (negb s)) as [|p rest] eqn:Eo; [done|].
    destruct (recv s (rw_node w s) p) as [[[n out] g]|] eqn:Er; [|done]. cbn [fst].
    destruct (H (negb s)) as (_ & _ & _ & _ & Ho). rewrite Eo in Ho. apply Forall_cons in Ho as [Hp Hrest].
    destruct (only_recv k s (rw_node w s) p n out g H1 H2 H3 H4 Hp Er) as (R1 & R2 & R3 & R4 & R5).
    apply only_put; try done. intros u. cbn [rw_node rw_out]. destruct (H u) as (U1 & U2 & U3 & U4 & U5). do 4 (split; [done|]).
    unfold rupd. by destruct (Bool.eqb u (negb s)).
Qed.
Lemma only_unmixed k es : ∀ w, only k w → Forall (asks k) es → unmixed w es.
Proof.
  induction es as [|e es IH]; intros w H Hf; [done|]. apply Forall_cons in Hf as [He Hf]. cbn [unmixed]. split.
  - intros (s & want & cur & t & t' & x & rest & -> & Em & Eo & Hne & _). apply Hne.
    destruct (H s) as (_ & _ & H3 & _). destruct (H (negb s)) as (_ & _ & _ & _ & Ho). rewrite Eo in Ho.
    apply Forall_cons in Ho as [-> _]. by rewrite (H3 _ _ _ Em).
  - apply IH; [by apply only_step|done].
Qed.
Lemma only_init k v : only k (rworld_init v).
Proof. intros s. cbn. repeat split; try done; constructor. Qed.

(** ** The loser of a conflict waits for the next one *)
Definition stuck (w : rworld) : Prop :=
  (∀ s, rw_out w s = [] ∧ r_sent (rw_node w s) = [] ∧ r_queued (rw_node w s) = [] ∧ r_readers (rw_node w s) = 0) ∧
  (r_mode (rw_node w true) = Free ∨ r_mode (rw_node w true) = Bg) ∧ ∃ want cur t, r_mode (rw_node w false) = Trying want cur t.
Lemma stuck_put w (s : bool) n :
  stuck w → r_sent n = [] → r_queued n = [] → r_readers n = 0 →
  (if (s : bool) then r_mode n = Free ∨ r_mode n = Bg else ∃ want cur t, r_mode n = Trying want cur t) → stuck (put w s n []).
Proof.
  intros (H1 & H2 & H3) E1 E2 E3 E4. split.
  - intros u. unfold put. cbn [rw_node rw_out]. unfold rupd. destruct (Bool.eqb u s) eqn:E; [|apply H1].
    apply Bool.eqb_prop in E as ->. destruct (H1 s) as (-> & _). done.
  - unfold put. cbn [rw_node]. unfold rupd. by destruct s.
Qed.
Lemma stuck_step w e : stuck w → quiet e → stuck (rstep w e).1 ∧ (rstep w e).2 = None.
Proof.
  intros H Hq. pose proof H as (H1 & H2 & want & cur & t0 & H3).
  destruct e as [s x|s i|s t|s|s|s v|s|s|s]; [done|..]; cbn [rstep]; destruct (H1 s) as (E1 & E2 & E3 & E4).
  - rewrite E2. done.
  - rewrite E3. by destruct (r_mode (rw_node w s)).
  - destruct (r_bg (rw_node w s)); [|done]. rewrite E3. destruct s.
    + destruct H2 as [E|E]; rewrite E; [|done]. split; [|done]. apply stuck_put; cbn; auto.
    + rewrite H3. split; [|done]. apply stuck_put; cbn; eauto.
  - destruct (r_sig (rw_node w s)); [done|]. destruct s.
    + destruct H2 as [E|E]; rewrite E; [destruct (r_bg (rw_node w true)); [done|]|]; (split; [|done]); apply stuck_put; cbn; auto.
    + rewrite H3. destruct (r_bg (rw_node w false)); [done|]. split; [|done]. apply stuck_put; cbn; eauto.
  - destruct s; [destruct H2 as [E|E]; rewrite E|rewrite H3]; done.
  - rewrite E4. destruct s; [destruct H2 as [E|E]; rewrite E|rewrite H3]; done.
  - destruct s; [destruct H2 as [E|E]; rewrite E|rewrite H3]; done.
  - destruct (H1 (negb s)) as (-> & _). done.
Qed.
Lemma stuck_run es : ∀ w, stuck w → Forall quiet es → (rrun w es).2 = [].
Proof.
  induction es as [|e es IH]; intros w H Hf; [done|]. apply Forall_cons in Hf as [He Hf]. cbn [rrun].
  destruct (stuck_step w e H He) as [H' E]. destruct (rstep w e) as [w1 o]. cbn [fst snd] in *. subst o.
  specialize (IH w1 H' Hf). by destruct (rrun w1 es).
Qed.

(** ** What is handed out *)
Lemma grant_holds want cur n :
  0 < r_readers (grant want cur n) ∨ r_mode (grant want cur n) = Writer ∨ r_mode (grant want cur n) = Odd want.
Proof. destruct want, cur; cbn; auto with lia. Qed.
Lemma recv_granted s n p n' out k : recv s n p = Some (n', out, Some k) → ∃ cur n1, n' = grant k cur n1.
Proof.
  unfold recv. destruct (r_mode n) as [| |j|want cur t|want cur t| | |want|j adj|j]; try done; intros H; apply (inj Some) in H.
  - by destruct p.
  - by destruct (yield_recv j n p).
  - destruct p as [t' x|v| | |]; try done; [|injection H as <- <- <-; by eexists _, _..].
    destruct x, cur; [injection H as <- <- <-; by eexists _, _|..]; (destruct (local_wins s t t'); [|done]);
      injection H as <- <- <-; by eexists _, _.
  - by destruct (yield_recv cur n p).
  - destruct p; try done. by destruct adj.
  - by destruct (yield_recv j n p).
Qed.
Lemma step_granted w e w' s k v :
  rstep w e = (w', Some (Granted s k v)) → v = r_value (rw_node w' s) ∧ (reading w' s ∨ writing w' s) ∧ now_last w e = id.
Proof.
  intros H. destruct e as [u x|u i|u t|u|u|u x|u|u|u]; cbn [rstep now_last] in H |- *.
  - destruct x; [|done]. destruct (_ && _); [|done]. injection H as <- <- <- <-. unfold put, reading. cbn [rw_node]. unfold rupd.
    rewrite Bool.eqb_reflx. split; [done|]. split; [|done]. left. left. cbn. lia.
  - by destruct (r_sent (rw_node w u) !! i).
  - destruct (r_mode (rw_node w u)); try done. by destruct (r_queued (rw_node w u)).
  - destruct (r_bg (rw_node w u)); [|done]. destruct (r_mode (rw_node w u)); try done. by destruct (r_queued (rw_node w u)).
  - destruct (r_sig (rw_node w u)); [done|]. destruct (r_mode (rw_node w u)), (r_bg (rw_node w u)); done.
  - by destruct (r_mode (rw_node w u)) as [| | | | | | |[]| |].
  - destruct (r_mode (rw_node w u)) as [| | | | | | |[]| |], (r_readers (rw_node w u)); try done; by destruct (_ =? _).
  - by destruct (r_mode (rw_node w u)) as [| | | | | | |[]| |].
  - destruct (rw_out w (negb u)) as [|p rest]; [done|]. destruct (recv u (rw_node w u) p) as [[[n out] [g|]]|] eqn:E; [|done..].
    injection H as <- <- <- <-. destruct (recv_granted _ _ _ _ _ _ E) as (cur & n1 & ->). unfold put, reading, writing. cbn [rw_node]. unfold rupd.
    rewrite Bool.eqb_reflx. split; [done|]. split; [|done].
    destruct (grant_holds g cur n1) as [?|[?|E1]]; [by left; left|by right; left|]. destruct g; [left|right]; by right.
Qed.
Lemma rrun_app es1 : ∀ w es2, rrun w (es1 ++ es2) = ((rrun (rrun w es1).1 es2).1, (rrun w es1).2 ++ (rrun (rrun w es1).1 es2).2).
Proof.
  induction es1 as [|e es IH]; intros w es2; cbn [app rrun fst snd].
  - by destruct (rrun w es2).
  - destruct (rstep w e) as [w1 o]. rewrite IH. destruct (rrun w1 es) as [w2 os]. cbn [fst snd]. by destruct o.
Qed.
Lemma last_written_app es1 : ∀ w es2 v, last_written w (es1 ++ es2) v = last_written (rrun w es1).1 es2 (last_written w es1 v).
Proof.
  induction es1 as [|e es IH]; intros w es2 v; [done|]. cbn [app last_written rrun]. destruct (rstep w e) as [w1 o]. cbn [fst].
  rewrite IH. by destruct (rrun w1 es).
Qed.
