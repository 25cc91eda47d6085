(** Proofs about the timers of a session. *)
From Coq Require Import ZifyBool ZifyNat ZifyN.
From stdpp Require Import prelude gmap.
From Verif Require Import SessionQueue_Model SessionQueue_Spec.
Local Open Scope N_scope.

Lemma U64_eq : U64 = 18446744073709551616.
Proof. reflexivity. Qed.
Lemma two63_eq : 2 ^ 63 = 9223372036854775808.
Proof. reflexivity. Qed.

Lemma small_idx i : i < 2 ^ 62 → i < 2 ^ 63 - 10.
Proof.
  rewrite two63_eq. change (2 ^ 62) with 4611686018427387904. lia.
Qed.

Definition one_shot (t : ticket) : bool :=
  match t with Oneshot _ _ => true | _ => false end.

(** The queue and the timers agree: the pending expirations are the timers,
    and the ticket of each of them leads to its own entry. *)
Record Rel (q : queue) (s : timers) : Prop := {
  re_now : q_now q = ts_now s;
  re_next : q_next q = ts_next s;
  re_dead : q_dead q = ts_over s;
  re_dom : q_dead q = false → ∀ id, q_exp q !! id = None ↔ ts_all s !! id = None;
  re_exp : q_dead q = false → ∀ id t due, q_exp q !! id = Some (t, due) →
    id < q_next q ∧
    ∃ period, q_entries q !! t = Some (id, period) ∧
      ts_all s !! id = Some (Timer due period (one_shot t));
  re_ent : q_dead q = false → ∀ t id period, q_entries q !! t = Some (id, period) →
    ∃ due, q_exp q !! id = Some (t, due)
}.

(** The tickets in use, told from the registrations. *)
Record Tix (q : queue) (seen : list ticket) (last : gmap N N) (n : N) : Prop := {
  ti_roll : q_rolling q ≤ n;
  ti_hand : q_handle q ≤ n;
  ti_once : ∀ i c v, q_entries q !! Oneshot i c = Some v →
    Oneshot i c ∈ seen ∨ (10 ≤ i ∧ i < q_rolling q + 11);
  ti_peri : ∀ i c v, q_entries q !! Periodic i c = Some v →
    Periodic i c ∈ seen ∨
    (10 ≤ i ∧ ∃ l, last !! c = Some l ∧ i < l + 10 + q_handle q);
  ti_seen : ∀ t, t ∈ seen → tix_idx t < 10
}.

Lemma Rel0 : Rel q0 ts0.
Proof.
  split; try done; cbn [q0 ts0 q_exp q_entries ts_all]; intros _ *;
    rewrite ?lookup_empty; done.
Qed.

Lemma Tix0 : Tix q0 [] ∅ 0.
Proof.
  split; cbn [q0 q_rolling q_handle q_entries]; try lia.
  - intros i c v H. by rewrite lookup_empty in H.
  - intros i c v H. by rewrite lookup_empty in H.
  - intros t H. by apply elem_of_nil in H.
Qed.

Lemma fresh_reserved q seen last n t :
  Tix q seen last n → t ∉ seen → tix_idx t < 10 → q_entries q !! t = None.
Proof.
  intros HT Hs Hi. destruct (q_entries q !! t) as [v|] eqn:E; [|done].
  destruct t as [i c|i c]; cbn [tix_idx] in Hi.
  - destruct (ti_once _ _ _ _ HT _ _ _ E) as [?|[? _]]; [done|lia].
  - destruct (ti_peri _ _ _ _ HT _ _ _ E) as [?|[? _]]; [done|lia].
Qed.

Lemma fresh_oneshot q seen last n :
  Tix q seen last n → n < 2 ^ 63 →
  q_entries q !! ticket_of q KOneshot = None.
Proof.
  intros HT Hn. cbn [ticket_of].
  pose proof (ti_roll _ _ _ _ HT) as Hr.
  rewrite N.mod_small by (rewrite U64_eq; rewrite two63_eq in Hn;
    unfold RESERVED; lia).
  destruct (q_entries q !! _) as [v|] eqn:E; [|done].
  destruct (ti_once _ _ _ _ HT _ _ _ E) as [H|[_ H]].
  - apply (ti_seen _ _ _ _ HT) in H. cbn [tix_idx] in H.
    unfold RESERVED in H. lia.
  - unfold RESERVED in H. lia.
Qed.

Lemma fresh_ordinary q seen last n idx cid :
  Tix q seen last n → n < 2 ^ 63 → idx < 2 ^ 63 - 10 →
  default 0 (last !! cid) ≤ idx →
  q_entries q !! ticket_of q (KOrdinary idx cid) = None.
Proof.
  intros HT Hn Hi Hl. cbn [ticket_of].
  pose proof (ti_hand _ _ _ _ HT) as Hr.
  rewrite two63_eq in *.
  rewrite N.mod_small by (rewrite U64_eq; unfold RESERVED; lia).
  destruct (q_entries q !! _) as [v|] eqn:E; [|done].
  destruct (ti_peri _ _ _ _ HT _ _ _ E) as [H|(_ & l & El & H)].
  - apply (ti_seen _ _ _ _ HT) in H. cbn [tix_idx] in H.
    unfold RESERVED in H. lia.
  - rewrite El in Hl. assert (l ≤ idx) by (exact Hl).
    unfold RESERVED in H. lia.
Qed.

(** A registration with a ticket that is not in use. *)
Lemma Rel_insert q s k timeout :
  Rel q s → q_dead q = false → q_entries q !! ticket_of q k = None →
  one_shot (ticket_of q k) = once k →
  Rel (q_insert q k timeout) (ts_step s (QInsert k timeout)).1.
Proof.
  intros HR Hd Hf Ho. unfold ts_step. rewrite <- (re_dead _ _ HR), Hd.
  cbn [fst]. unfold q_insert.
  split; cbn [q_now q_next q_dead q_exp q_entries ts_now ts_next ts_over ts_all].
  - apply HR.
  - by rewrite (re_next _ _ HR).
  - done.
  - intros _ id. rewrite <- (re_next _ _ HR).
    rewrite !lookup_insert_None, (re_dom _ _ HR Hd). done.
  - intros _ id t due [[<- [= <- <-]]|[Hne H]]%lookup_insert_Some.
    + split; [lia|]. exists timeout. rewrite <- (re_next _ _ HR).
      rewrite !lookup_insert. by rewrite Ho, (re_now _ _ HR).
    + destruct (re_exp _ _ HR Hd _ _ _ H) as (Hlt & p & He & Ht).
      split; [lia|]. exists p.
      rewrite <- (re_next _ _ HR), lookup_insert_ne by congruence.
      by rewrite lookup_insert_ne by done.
  - intros _ t id period [[<- [= <- <-]]|[Hne H]]%lookup_insert_Some.
    + eexists. rewrite lookup_insert. reflexivity.
    + destruct (re_ent _ _ HR Hd _ _ _ H) as (due & Hx). exists due.
      destruct (re_exp _ _ HR Hd _ _ _ Hx) as (Hlt & _).
      rewrite lookup_insert_ne by lia. done.
Qed.

Lemma Rel_tick q s d :
  Rel q s → q_dead q = false →
  Rel (q_step q (QTick d)).1 (ts_step s (QTick d)).1.
Proof.
  intros HR Hd. unfold q_step, ts_step. rewrite <- (re_dead _ _ HR), Hd.
  cbn [fst]. split; cbn [q_now q_next q_dead q_exp q_entries ts_now ts_next
    ts_over ts_all].
  - by rewrite (re_now _ _ HR).
  - apply HR.
  - done.
  - intros _. by apply (re_dom _ _ HR Hd).
  - intros _. by apply (re_exp _ _ HR Hd).
  - intros _. by apply (re_ent _ _ HR Hd).
Qed.

(** The entry of an expired registration is removed. *)
Lemma Rel_remove q s id t due :
  Rel q s → q_dead q = false → q_exp q !! id = Some (t, due) →
  Rel (with_entries (delete t (q_entries q))
         (with_exp (delete id (q_exp q)) q))
      (Timers (ts_now s) (delete id (ts_all s)) (ts_next s) false).
Proof.
  intros HR Hd Hx.
  destruct (re_exp _ _ HR Hd _ _ _ Hx) as (_ & p & He & _).
  split; cbn [with_entries with_exp q_now q_next q_dead q_exp q_entries ts_now
    ts_next ts_over ts_all].
  - apply HR.
  - apply HR.
  - done.
  - intros _ id'. rewrite !lookup_delete_None, (re_dom _ _ HR Hd). done.
  - intros _ id' t' due' [Hne H]%lookup_delete_Some.
    destruct (re_exp _ _ HR Hd _ _ _ H) as (Hlt & p' & He' & Ht').
    split; [done|]. exists p'. split.
    + apply lookup_delete_Some. split; [|done]. intros <-. congruence.
    + by rewrite lookup_delete_ne.
  - intros _ t' id' p' [Hne H]%lookup_delete_Some.
    destruct (re_ent _ _ HR Hd _ _ _ H) as (due' & Hx'). exists due'.
    apply lookup_delete_Some. split; [|done]. intros <-. congruence.
Qed.

(** An expired registration is rearmed. *)
Lemma Rel_rearm q s id t due due' p :
  Rel q s → q_dead q = false → q_exp q !! id = Some (t, due) →
  q_entries q !! t = Some (id, p) → one_shot t = false →
  Rel (with_exp (<[id := (t, due')]> (delete id (q_exp q)))
         (with_exp (delete id (q_exp q)) q))
      (Timers (ts_now s) (<[id := Timer due' p false]> (ts_all s))
         (ts_next s) false).
Proof.
  intros HR Hd Hx He Ho.
  destruct (re_exp _ _ HR Hd _ _ _ Hx) as (Hlt0 & _).
  split; cbn [with_entries with_exp q_now q_next q_dead q_exp q_entries ts_now
    ts_next ts_over ts_all].
  - apply HR.
  - apply HR.
  - done.
  - intros _ id'. rewrite insert_delete_insert.
    rewrite !lookup_insert_None, (re_dom _ _ HR Hd). done.
  - intros _ id' t' d'. rewrite insert_delete_insert.
    intros [[<- [= <- <-]]|[Hne H]]%lookup_insert_Some.
    + split; [done|]. exists p. rewrite lookup_insert, Ho. done.
    + destruct (re_exp _ _ HR Hd _ _ _ H) as (Hlt & p' & He' & Ht').
      split; [done|]. exists p'. by rewrite lookup_insert_ne.
  - intros _ t' id' p' H. rewrite insert_delete_insert.
    destruct (re_ent _ _ HR Hd _ _ _ H) as (d' & Hx').
    destruct (decide (id = id')) as [<-|Hne].
    + exists due'. rewrite lookup_insert. congruence.
    + exists d'. by rewrite lookup_insert_ne.
Qed.

(** A dead queue. *)
Lemma Rel_dead q s :
  q_dead q = true → ts_over s = true → q_now q = ts_now s →
  q_next q = ts_next s → Rel q s.
Proof. intros H1 H2 H3 H4. split; try done; by rewrite ?H1, ?H2. Qed.

Lemma Rel_expire q s id answer :
  Rel q s →
  Rel (q_step q (QExpire id answer)).1 (ts_step s (QExpire id answer)).1 ∧
  (q_step q (QExpire id answer)).2 = (ts_step s (QExpire id answer)).2.
Proof.
  intros HR. unfold q_step, ts_step. rewrite <- (re_dead _ _ HR).
  destruct (q_dead q) eqn:Hd; [done|].
  destruct (q_exp q !! id) as [[t due]|] eqn:Ex.
  2:{ apply (re_dom _ _ HR Hd) in Ex as ->. done. }
  destruct (re_exp _ _ HR Hd _ _ _ Ex) as (Hlt & p & He & Ht). rewrite Ht.
  cbn [tm_due tm_period tm_once]. rewrite <- (re_now _ _ HR).
  destruct (due <=? q_now q); [|done].
  unfold q_expire. cbn [with_exp q_entries q_exp].
  pose proof (Rel_remove _ _ _ _ _ HR Hd Ex) as Hrem.
  rewrite <- (re_now _ _ HR) in Hrem.
  destruct t as [i c|i c]; rewrite He; cbn [one_shot].
  - destruct answer; cbn [fst snd]; split; try done.
    apply Rel_dead; [done|done|done|]. cbn. apply HR.
  - pose proof (λ due', Rel_rearm _ _ _ _ _ due' _ HR Hd Ex He eq_refl) as Hre.
    rewrite <- (re_now _ _ HR) in Hre.
    destruct answer; cbn [fst snd]; split; try done; try apply Hre.
    apply Rel_dead; [done|done|done|]. cbn. apply HR.
Qed.

Lemma step_dead q s e :
  Rel q s → q_dead q = true →
  (q_step q e) = (q, QNone) ∧ (ts_step s e) = (s, QNone).
Proof.
  intros HR Hd. unfold q_step, ts_step. rewrite <- (re_dead _ _ HR), Hd. done.
Qed.

Lemma dead_run q s es :
  Rel q s → q_dead q = true → q_run q es = ts_run s es.
Proof.
  intros HR Hd. induction es as [|e es IH]; cbn [q_run ts_run]; [done|].
  destruct (step_dead q s e HR Hd) as [-> ->]. cbn [fst snd]. by rewrite IH.
Qed.

(** Only registrations add entries. *)
Lemma expire_entries q id answer t v :
  q_entries (q_step q (QExpire id answer)).1 !! t = Some v →
  q_entries q !! t = Some v.
Proof.
  unfold q_step. destruct (q_dead q); [done|].
  destruct (q_exp q !! id) as [[t' due]|]; [|done].
  destruct (due <=? q_now q); [|done].
  unfold q_expire. cbn [with_exp q_entries q_exp].
  destruct t' as [i c|i c].
  - destruct (q_entries q !! Oneshot i c) as [[cb p]|]; [|done].
    destruct answer; cbn [fst with_entries dead q_entries];
      intros [_ H]%lookup_delete_Some; done.
  - destruct (q_entries q !! Periodic i c) as [[cb p]|]; [|done].
    destruct answer; cbn [fst with_entries with_exp dead q_entries]; try done.
    intros [_ H]%lookup_delete_Some; done.
Qed.

Lemma expire_counters q id answer :
  q_rolling (q_step q (QExpire id answer)).1 = q_rolling q ∧
  q_handle (q_step q (QExpire id answer)).1 = q_handle q.
Proof.
  unfold q_step. destruct (q_dead q); [done|].
  destruct (q_exp q !! id) as [[t' due]|]; [|done].
  destruct (due <=? q_now q); [|done].
  unfold q_expire. cbn [with_exp q_entries q_exp].
  destruct t' as [i c|i c].
  - destruct (q_entries q !! Oneshot i c) as [[cb p]|]; [|done].
    by destruct answer.
  - destruct (q_entries q !! Periodic i c) as [[cb p]|]; [|done].
    by destruct answer.
Qed.

Lemma Tix_expire q seen last n id answer :
  Tix q seen last n → Tix (q_step q (QExpire id answer)).1 seen last (n + 1).
Proof.
  intros HT. destruct (expire_counters q id answer) as [Er Eh].
  split; rewrite ?Er, ?Eh.
  - pose proof (ti_roll _ _ _ _ HT). lia.
  - pose proof (ti_hand _ _ _ _ HT). lia.
  - intros i c v H%expire_entries. by eapply (ti_once _ _ _ _ HT).
  - intros i c v H%expire_entries. by eapply (ti_peri _ _ _ _ HT).
  - apply HT.
Qed.

Lemma Tix_reserved q seen last n t timeout :
  Tix q seen last n → tix_idx t < 10 →
  Tix (q_insert q (KReserved t) timeout) (t :: seen) last (n + 1).
Proof.
  intros HT Hi. unfold q_insert. cbn [ticket_of is_ordinary].
  split; cbn [q_rolling q_handle q_entries].
  - pose proof (ti_roll _ _ _ _ HT). lia.
  - pose proof (ti_hand _ _ _ _ HT). lia.
  - intros i c v [[-> _]|[_ H]]%lookup_insert_Some.
    + left. apply elem_of_list_here.
    + destruct (ti_once _ _ _ _ HT _ _ _ H) as [?|[? ?]].
      * left. by apply elem_of_list_further.
      * right. lia.
  - intros i c v [[-> _]|[_ H]]%lookup_insert_Some.
    + left. apply elem_of_list_here.
    + destruct (ti_peri _ _ _ _ HT _ _ _ H) as [?|?].
      * left. by apply elem_of_list_further.
      * by right.
  - intros t' [-> |H]%elem_of_cons; [done|by apply (ti_seen _ _ _ _ HT)].
Qed.

Lemma Tix_oneshot q seen last n timeout :
  Tix q seen last n → n < 2 ^ 63 →
  Tix (q_insert q KOneshot timeout) seen last (n + 1).
Proof.
  intros HT Hn. pose proof (ti_roll _ _ _ _ HT) as Hr.
  unfold q_insert. cbn [ticket_of is_ordinary].
  rewrite N.mod_small by (rewrite U64_eq; rewrite two63_eq in Hn;
    unfold RESERVED; lia).
  split; cbn [q_rolling q_handle q_entries].
  - lia.
  - pose proof (ti_hand _ _ _ _ HT). lia.
  - intros i c v [[[= <- <-] _]|[_ H]]%lookup_insert_Some.
    + right. unfold RESERVED. lia.
    + destruct (ti_once _ _ _ _ HT _ _ _ H) as [?|[? ?]]; [by left|].
      right. lia.
  - intros i c v [[? _]|[_ H]]%lookup_insert_Some; [done|].
    by eapply (ti_peri _ _ _ _ HT).
  - apply HT.
Qed.

Lemma Tix_ordinary q seen last n idx cid timeout :
  Tix q seen last n → n < 2 ^ 63 → idx < 2 ^ 63 - 10 →
  default 0 (last !! cid) ≤ idx →
  Tix (q_insert q (KOrdinary idx cid) timeout) seen (<[cid := idx]> last)
    (n + 1).
Proof.
  intros HT Hn Hi Hl. pose proof (ti_hand _ _ _ _ HT) as Hr.
  unfold q_insert. cbn [ticket_of is_ordinary].
  rewrite two63_eq in *.
  rewrite N.mod_small by (rewrite U64_eq; unfold RESERVED; lia).
  split; cbn [q_rolling q_handle q_entries].
  - pose proof (ti_roll _ _ _ _ HT). lia.
  - lia.
  - intros i c v [[? _]|[_ H]]%lookup_insert_Some; [done|].
    destruct (ti_once _ _ _ _ HT _ _ _ H) as [?|[? ?]]; [by left|].
    right. lia.
  - intros i c v [[[= <- <-] _]|[_ H]]%lookup_insert_Some.
    + right. unfold RESERVED. split; [lia|]. exists idx.
      rewrite lookup_insert. split; [done|]. lia.
    + destruct (ti_peri _ _ _ _ HT _ _ _ H) as [?|(? & l & El & ?)];
        [by left|].
      right. split; [done|]. destruct (decide (cid = c)) as [<-|Hne].
      * exists idx. rewrite lookup_insert. split; [done|].
        rewrite El in Hl. assert (l ≤ idx) by (exact Hl). lia.
      * exists l. rewrite lookup_insert_ne by done. split; [done|]. lia.
  - apply HT.
Qed.

Lemma own_timers_run es :
  ∀ q s seen last n,
    Rel q s → Tix q seen last n → orderly seen last es →
    n + N.of_nat (length es) < 2 ^ 63 →
    q_run q es = ts_run s es.
Proof.
  induction es as [|e es IH]; intros q s seen last n HR HT Ho Hn; [done|].
  destruct (q_dead q) eqn:Hd; [by apply dead_run|].
  assert (Hn1 : n < 2 ^ 63) by (cbn [length] in Hn; lia).
  assert (Hn2 : n + 1 + N.of_nat (length es) < 2 ^ 63)
    by (cbn [length] in Hn; lia).
  assert (Hins : ∀ k timeout, q_step q (QInsert k timeout) =
    (q_insert q k timeout, QNone)) by (intros; unfold q_step; by rewrite Hd).
  assert (Hts : ∀ k timeout, (ts_step s (QInsert k timeout)).2 = QNone).
  { intros. unfold ts_step. by rewrite <- (re_dead _ _ HR), Hd. }
  cbn [q_run ts_run].
  destruct e as [k timeout|d|id answer].
  - rewrite Hins, Hts. cbn [fst snd]. f_equal.
    destruct k as [t| |idx cid]; cbn [orderly] in Ho.
    + destruct Ho as (H1 & H2 & H3).
      eapply (IH _ _ (t :: seen) last (n + 1)); [|by apply Tix_reserved|done..].
      apply Rel_insert; [done|done|by eapply fresh_reserved|].
      by destruct t.
    + eapply (IH _ _ seen last (n + 1)); [|by apply Tix_oneshot|done..].
      apply Rel_insert; [done|done|by eapply fresh_oneshot|done].
    + destruct Ho as (H1 & H2%small_idx & H3).
      eapply (IH _ _ seen (<[cid := idx]> last) (n + 1));
        [|by apply Tix_ordinary|done..].
      apply Rel_insert; [done|done|by eapply fresh_ordinary|done].
  - cbn [orderly] in Ho.
    assert (E : (q_step q (QTick d)).2 = (ts_step s (QTick d)).2).
    { unfold q_step, ts_step. by rewrite <- (re_dead _ _ HR), Hd. }
    rewrite E. f_equal.
    eapply (IH _ _ seen last (n + 1)); [by apply Rel_tick| |done..].
    unfold q_step. rewrite Hd. cbn [fst].
    destruct HT as [T1 T2 T3 T4 T5]. split; cbn; try done; lia.
  - cbn [orderly] in Ho. destruct (Rel_expire q s id answer HR) as [HR' E].
    rewrite E. f_equal.
    eapply (IH _ _ seen last (n + 1)); [done|by apply Tix_expire|done..].
Qed.
