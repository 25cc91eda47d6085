(** C161-C164: requests and answers within a program. *)
From Coq Require Import ZifyBool ZifyNat ZifyN.
From stdpp Require Import prelude gmap.
From Verif Require Import Callback_Model.
Local Open Scope N_scope.

(** the receiver answers every request [x] with [f x], when it answers *)
Fixpoint answers_by (f : N → N) (w : cworld) (es : list cevent) : Prop :=
  match es with
  | [] => True
  | e :: es =>
      (match e with Reply k r => ∀ i x, cb_taken w !! k = Some (i, x) → r = f x | _ => True end) ∧ answers_by f (cstep w e) es
  end.
Definition pending (c : cstate) : Prop := c = CSends ∨ c = CWaits.

(** what holds of every world *)
Record good (w : cworld) : Prop := {
  g_next : 1 ≤ cb_next w;
  g_map : ∀ i, i ∈ cb_map w → is_Some (cb_calls w !! i);
  g_calls : ∀ i c, cb_calls w !! i = Some c → 1 ≤ i < cb_next w;
  g_queue : ∀ i x, (i, x) ∈ cb_queue w ++ cb_taken w → i = no_response ∨ ∃ c, cb_calls w !! i = Some (x, c) ∧ c ≠ CSends;
  g_pend : ∀ i x c, cb_calls w !! i = Some (x, c) → pending c → i ∈ cb_map w }.
Lemma good_init room : good (cworld_init room).
Proof. split; cbn; try done; try set_solver. Qed.
(** a call gets another state *)
Lemma good_state w i x c c' :
  good w → cb_calls w !! i = Some (x, c) → (pending c' → pending c) → c' ≠ CSends →
  good (mk_cworld (cb_next w) (cb_map w) (cb_queue w) (cb_room w) (cb_rx w) (cb_taken w) (<[i := (x, c')]> (cb_calls w))).
Proof.
  intros [G1 G2 G3 G4 G5] Hi Hp Hs. split; cbn.
  - done.
  - intros j Hj. destruct (decide (j = i)) as [->|Hn]; [rewrite lookup_insert; by eexists|]. rewrite lookup_insert_ne by done. by apply G2.
  - intros j d Hj. destruct (decide (j = i)) as [->|Hn]; [by eapply G3|]. rewrite lookup_insert_ne in Hj by done. by eapply G3.
  - intros j y Hj. destruct (G4 j y Hj) as [|(d & Hd & Hds)]; [by left|]. right. destruct (decide (j = i)) as [->|Hn].
    + exists c'. rewrite lookup_insert. split; [congruence|done].
    + exists d. by rewrite lookup_insert_ne.
  - intros j y d Hj Hpd. destruct (decide (j = i)) as [->|Hn].
    + rewrite lookup_insert in Hj. injection Hj as <- <-. eapply G5; [exact Hi|by apply Hp].
    + rewrite lookup_insert_ne in Hj by done. by eapply G5.
Qed.
Lemma good_remove w i :
  good w → (∀ x c, cb_calls w !! i = Some (x, c) → ¬ pending c) →
  good (mk_cworld (cb_next w) (cb_map w ∖ {[i]}) (cb_queue w) (cb_room w) (cb_rx w) (cb_taken w) (cb_calls w)).
Proof.
  intros [G1 G2 G3 G4 G5] Hi. split; cbn; [done| |done|done|].
  - intros j Hj. apply G2. apply elem_of_difference in Hj. apply Hj.
  - intros j x c Hj Hp. apply elem_of_difference. split; [by eapply G5|]. intros ->%elem_of_singleton. by eapply Hi.
Qed.
Lemma good_queue w q t rx :
  good w → (∀ i x, (i, x) ∈ q ++ t → (i, x) ∈ cb_queue w ++ cb_taken w ∨ i = no_response ∨ ∃ c, cb_calls w !! i = Some (x, c) ∧ c ≠ CSends) →
  good (mk_cworld (cb_next w) (cb_map w) q (cb_room w) rx t (cb_calls w)).
Proof.
  intros [G1 G2 G3 G4 G5] H. split; cbn; [done|done|done| |done].
  intros i x Hi. destruct (H i x Hi) as [Hq|Hq]; [by apply G4|done].
Qed.
Lemma good_step w e : good w → good (cstep w e).
Proof.
  intros G. destruct e as [x|i|i|x| |k r|]; cbn [cstep].
  - destruct G as [G1 G2 G3 G4 G5]. unfold do_call. split; cbn.
    + lia.
    + intros j Hj. destruct (decide (j = cb_next w)) as [->|Hn]; [rewrite lookup_insert; by eexists|]. rewrite lookup_insert_ne by done.
      apply G2. apply elem_of_union in Hj as [Hj%elem_of_singleton|Hj]; done.
    + intros j c Hj. destruct (decide (j = cb_next w)) as [->|Hn]; [lia|]. rewrite lookup_insert_ne in Hj by done. apply G3 in Hj. lia.
    + intros j y Hj. destruct (G4 j y Hj) as [|(c & Hc & Hcs)]; [by left|]. right. exists c. rewrite lookup_insert_ne; [done|].
      intros <-. apply G3 in Hc. lia.
    + intros j y c Hj Hp. apply elem_of_union. destruct (decide (j = cb_next w)) as [->|Hn]; [left; by apply elem_of_singleton|].
      rewrite lookup_insert_ne in Hj by done. right. by eapply G5.
  - unfold do_push. destruct (cb_calls w !! i) as [[x []]|] eqn:Ei; try done. destruct (cb_rx w) eqn:Er.
    + destruct (bool_decide _); [|done].
      pose proof (good_state w i x CSends CWaits G Ei (λ _, or_introl eq_refl) ltac:(done)) as G'.
      pose proof (good_queue _ (cb_queue w ++ [(i, x)]) (cb_taken w) true G') as G''. cbn in G''. apply G''.
      intros j y Hj. rewrite !elem_of_app, elem_of_list_singleton in Hj.
      destruct Hj as [[Hj|[= -> ->]]|Hj]; [left; apply elem_of_app; by left| |left; apply elem_of_app; by right].
      right. right. exists CWaits. by rewrite lookup_insert.
    + pose proof (good_state w i x CSends (CReturned None) G Ei) as G'.
      assert (¬ pending (CReturned None)) as Hn by (by intros [|]). rewrite Er in G'.
      pose proof (good_remove _ i (G' ltac:(done) ltac:(done))) as G''. cbn in G''. apply G''.
      intros y c Hc. rewrite lookup_insert in Hc. injection Hc as <- <-. done.
  - unfold do_drop_call. assert (¬ pending CDropped) as Hn by (by intros [|]).
    destruct (cb_calls w !! i) as [[x []]|] eqn:Ei; try done; (eapply good_state; [done|exact Ei|done|done]).
  - unfold do_notify. destruct (_ && _); [|done]. apply good_queue; [done|]. intros j y Hj.
    rewrite !elem_of_app, elem_of_list_singleton in Hj. rewrite elem_of_app. destruct Hj as [[Hj|[= -> ->]]|Hj]; by auto.
  - unfold do_take. destruct (cb_queue w) as [|p rest] eqn:Eq; [done|]. destruct (cb_rx w); [|done]. apply good_queue; [done|].
    intros j y Hj. left. rewrite Eq. rewrite !elem_of_app, elem_of_list_singleton in Hj. rewrite elem_of_app, elem_of_cons.
    destruct Hj as [|[|]]; by auto.
  - unfold do_reply. destruct (cb_taken w !! k) as [[i y]|] eqn:Ek; [|done]. case_bool_decide as Hi; [|done].
    assert (¬ pending (CReturned (Some r))) as Hn by (by intros [|]).
    destruct (cb_calls w !! i) as [[x c]|] eqn:Ei.
    + destruct c.
      * exfalso. apply elem_of_list_lookup_2 in Ek. destruct (g_queue w G i y) as [->|(c & Hc & Hcs)]; [apply elem_of_app; by right| |congruence].
        apply (g_calls w G) in Ei. unfold no_response in Ei. lia.
      * pose proof (good_remove _ i (good_state w i x CWaits (CReturned (Some r)) G Ei ltac:(done) ltac:(done))) as G'. cbn in G'. apply G'.
        intros z c Hc. rewrite lookup_insert in Hc. injection Hc as <- <-. done.
      * apply good_remove; [done|]. intros z c Hc. rewrite Ei in Hc. injection Hc as <- <-. by intros [|].
      * apply good_remove; [done|]. intros z c Hc. rewrite Ei in Hc. injection Hc as <- <-. by intros [|].
    + apply good_remove; [done|]. intros z c Hc. congruence.
  - unfold do_drop_rx. apply good_queue; [done|]. intros j y Hj. left. apply elem_of_app. by right.
Qed.
Lemma good_run room es : good (crun (cworld_init room) es).
Proof.
  assert (∀ w, good w → good (crun w es)) as H; [|apply H, good_init].
  induction es as [|e es IH]; intros w G; [done|]. cbn. apply IH. by apply good_step.
Qed.
Lemma crun_app w es es' : crun w (es ++ es') = crun (crun w es) es'.
Proof. unfold crun. by rewrite foldl_app. Qed.

(** C161: a call gets the answer to its own request: whatever the order of the calls and answers, if the receiver answers [x] with [f x],
    the call with payload [x] returns [f x] or does not return an answer. *)
Theorem C161_own_answer f room es i x r :
  answers_by f (cworld_init room) es → cb_calls (crun (cworld_init room) es) !! i = Some (x, CReturned (Some r)) → r = f x.
Proof.
  assert (∀ w, good w → (∀ i x r, cb_calls w !! i = Some (x, CReturned (Some r)) → r = f x) → answers_by f w es →
    ∀ i x r, cb_calls (crun w es) !! i = Some (x, CReturned (Some r)) → r = f x) as H; [|intros Ha; apply H; [apply good_init|done|done]].
  clear. induction es as [|e es IH]; intros w G Hw Ha; [done|]. destruct Ha as [He Ha]. cbn. apply IH; [by apply good_step| |done].
  clear IH Ha es. intros j y r. destruct e as [x|i|i|x| |k s|]; cbn [cstep].
  - cbn. rewrite lookup_insert_Some. intros [[_ [=]]|[_ Hj]]. by eapply Hw.
  - unfold do_push. destruct (cb_calls w !! i) as [[x []]|] eqn:Ei; try (by apply Hw). destruct (cb_rx w); [destruct (bool_decide _)|]; cbn.
    + rewrite lookup_insert_Some. intros [[_ [=]]|[_ Hj]]. by eapply Hw.
    + apply Hw.
    + rewrite lookup_insert_Some. intros [[_ [=]]|[_ Hj]]. by eapply Hw.
  - unfold do_drop_call. destruct (cb_calls w !! i) as [[x []]|] eqn:Ei; try (by apply Hw); cbn;
      rewrite lookup_insert_Some; intros [[_ [=]]|[_ Hj]]; by eapply Hw.
  - unfold do_notify. destruct (_ && _); apply Hw.
  - unfold do_take. destruct (cb_queue w); [apply Hw|]. destruct (cb_rx w); apply Hw.
  - unfold do_reply. destruct (cb_taken w !! k) as [[i z]|] eqn:Ek; [|apply Hw]. case_bool_decide as Hi; [|apply Hw]. cbn.
    destruct (cb_calls w !! i) as [[x []]|] eqn:Ei; try (by apply Hw).
    rewrite lookup_insert_Some. intros [[<- [= <- <-]]|[_ Hj]]; [|by eapply Hw].
    rewrite (He i z eq_refl). apply elem_of_list_lookup_2 in Ek.
    destruct (g_queue w G i z) as [->|(c & Hc & Hcs)]; [apply elem_of_app; by right| |congruence].
    apply (g_calls w G) in Ei. unfold no_response in Ei. lia.
  - apply Hw.
Qed.
(** two calls, answered in the other order *)
Definition two_calls : list cevent := [Call 10; Call 20; Push 2; Notify 7; Push 1; Take; Take; Take; Reply 2 11; Reply 0 21].
Example C161_example :
  answers_by N.succ (cworld_init 5) two_calls ∧
  cb_calls (crun (cworld_init 5) two_calls) !! 1 = Some (10, CReturned (Some 11)) ∧
  cb_calls (crun (cworld_init 5) two_calls) !! 2 = Some (20, CReturned (Some 21)) ∧
  cb_taken (crun (cworld_init 5) two_calls) = [(2, 20); (0, 7); (1, 10)].
Proof.
  split; [|by vm_compute]. unfold two_calls. cbn [answers_by]. repeat (split; [exact I|]). split; [|split; [|exact I]].
  all: intros i x H; vm_compute in H; by injection H as <- <-.
Qed.

(** C162: a request is answered at most once: when it was replied to, every later reply to it is refused.  A reply to a request
    that expects none is refused too. *)
Lemma refused w es k i x :
  good w → cb_taken w !! k = Some (i, x) → i < cb_next w → i ∉ cb_map w →
  reply_ok (crun w es) k = false.
Proof.
  revert w. induction es as [|e es IH]; intros w G Hk Hi Hm.
  - cbn. unfold reply_ok. rewrite Hk. by rewrite bool_decide_eq_false_2.
  - cbn. apply IH; [by apply good_step|..]; clear IH; destruct e as [y|j|j|y| |l s|]; cbn [cstep].
    all: unfold do_call, do_push, do_drop_call, do_notify, do_take, do_reply, do_drop_rx.
    all: repeat case_match; cbn [cb_taken cb_next cb_map]; try done.
    all: try (by apply lookup_app_l_Some). all: try lia. all: set_solver by lia.
Qed.
Theorem C162_answered_once room es k r es' :
  is_Some (cb_taken (crun (cworld_init room) es) !! k) →
  reply_ok (crun (cworld_init room) (es ++ [Reply k r] ++ es')) k = false.
Proof.
  intros [[i x] Hk]. rewrite crun_app. set (w := crun (cworld_init room) es) in *. pose proof (good_run room es) as G. fold w in G.
  assert (i < cb_next w) as Hi.
  { destruct (g_queue w G i x) as [->|(c & Hc & _)]; [apply elem_of_app; right; by eapply elem_of_list_lookup_2| |apply (g_calls w G) in Hc; lia].
    pose proof (g_next w G). unfold no_response. lia. }
  cbn. apply (refused _ es' k i x); [exact (good_step w (Reply k r) G)|..]; cbn [cstep]; unfold do_reply; rewrite Hk; case_bool_decide as Hm; cbn; try done.
  set_solver.
Qed.
Theorem C162_no_response room es k x :
  cb_taken (crun (cworld_init room) es) !! k = Some (no_response, x) → reply_ok (crun (cworld_init room) es) k = false.
Proof.
  intros Hk. pose proof (good_run room es) as G. apply (refused (crun (cworld_init room) es) [] k no_response x); [exact G|exact Hk|..].
  - pose proof (g_next _ G) as Hn. unfold no_response. clear -Hn. lia.
  - intros Hm. apply (g_map _ G) in Hm as [c Hc]. apply (g_calls _ G) in Hc. unfold no_response in Hc. lia.
Qed.
(** a first reply is accepted while the caller waits *)
Theorem C162_first room es k i x :
  cb_taken (crun (cworld_init room) es) !! k = Some (i, x) → cb_calls (crun (cworld_init room) es) !! i = Some (x, CWaits) →
  reply_ok (crun (cworld_init room) es) k = true ∧
  ∀ r, cb_calls (crun (cworld_init room) (es ++ [Reply k r])) !! i = Some (x, CReturned (Some r)).
Proof.
  intros Hk Hc. pose proof (good_run room es) as G. set (w := crun (cworld_init room) es) in *.
  assert (i ∈ cb_map w) as Hm by (eapply (g_pend w G); [exact Hc|by right]).
  split.
  - unfold reply_ok. rewrite Hk, Hc, bool_decide_eq_true_2 by done. done.
  - intros r. rewrite crun_app. fold w. cbn. unfold do_reply. rewrite Hk, bool_decide_eq_true_2 by done. cbn. rewrite Hc. by rewrite lookup_insert.
Qed.
Example C162_example :
  (reply_ok (crun (cworld_init 5) [Call 10; Push 1; Notify 7; Take; Take]) 0, reply_ok (crun (cworld_init 5) [Call 10; Push 1; Notify 7; Take; Take]) 1,
   reply_ok (crun (cworld_init 5) [Call 10; Push 1; Notify 7; Take; Take; Reply 0 11]) 0) = (true, false, false).
Proof. by vm_compute. Qed.

(** C163: when the receiver is gone, every call returns.  False: a call whose request is in the queue waits for ever, since its oneshot sender
    is in the map. *)
Theorem C163_refuted :
  cb_rx (crun (cworld_init 5) [Call 10; Push 1; DropRx]) = false ∧
  ∀ es, DropCall 1 ∉ es → cb_calls (crun (cworld_init 5) ([Call 10; Push 1; DropRx] ++ es)) !! 1 = Some (10, CWaits).
Proof.
  split; [done|]. intros es. rewrite crun_app.
  assert (∀ w, cb_rx w = false → cb_queue w = [] → cb_taken w = [] → 1 < cb_next w → cb_calls w !! 1 = Some (10, CWaits) →
    DropCall 1 ∉ es → cb_calls (crun w es) !! 1 = Some (10, CWaits)) as H; [|apply H; by vm_compute].
  induction es as [|e es IH]; intros w Hr Hq Ht Hn Hc Hd; [done|]. apply not_elem_of_cons in Hd as [He Hd]. cbn.
  destruct e as [x|i|i|x| |k r|]; cbn [cstep].
  - apply IH; cbn; try done; [lia|]. rewrite lookup_insert_ne by lia. done.
  - unfold do_push. destruct (cb_calls w !! i) as [[x []]|] eqn:Ei; try (by apply IH). rewrite Hr.
    apply IH; cbn; try done. rewrite lookup_insert_ne; [done|]. intros ->. congruence.
  - assert (i ≠ 1) as Hi by (by intros ->). unfold do_drop_call.
    destruct (cb_calls w !! i) as [[x []]|] eqn:Ei; try (by apply IH); (apply IH; cbn; try done; by rewrite lookup_insert_ne).
  - unfold do_notify. rewrite Hr. by apply IH.
  - unfold do_take. rewrite Hq. by apply IH.
  - unfold do_reply. rewrite Ht. by apply IH.
  - by apply IH.
Qed.
(** What holds: a call whose request is not in the queue yet, or that is made later, returns an error and leaves no slot; and nothing
    is lost of what was already taken: it can still be answered (C162_first). *)
Theorem C163_partial w i x :
  cb_rx w = false → cb_calls w !! i = Some (x, CSends) →
  cb_calls (cstep w (Push i)) !! i = Some (x, CReturned None) ∧ i ∉ cb_map (cstep w (Push i)).
Proof.
  intros Hr Hc. cbn. unfold do_push. rewrite Hc, Hr. cbn. rewrite lookup_insert. split; [done|set_solver].
Qed.
Example C163_example :
  cb_calls (crun (cworld_init 1) [Call 10; Call 20; Push 1; Push 2; DropRx; Push 2]) !! 2 = Some (20, CReturned None) ∧
  cb_calls (crun (cworld_init 1) [DropRx; Call 10; Push 1]) !! 1 = Some (10, CReturned None).
Proof. by vm_compute. Qed.

(** C164: slots are kept only for calls that are under way.  False: dropping the future of a call, as a timeout does, leaves its slot, and
    if its request was not in the queue yet, for ever. *)
Theorem C164_refuted : ∀ es, 1 ∈ cb_map (crun (cworld_init 5) ([Call 10; DropCall 1] ++ es)).
Proof.
  intros es. rewrite crun_app.
  assert (∀ w, 1 < cb_next w → (∀ x, (1, x) ∉ cb_queue w ++ cb_taken w) → 1 ∈ cb_map w → cb_calls w !! 1 = Some (10, CDropped) →
    1 ∈ cb_map (crun w es)) as H.
  2: { apply H; [by vm_compute|intros x; by apply not_elem_of_nil|cbn; set_solver|by vm_compute]. }
  induction es as [|e es IH]; intros w Hn Hq Hm Hc; [done|]. cbn. destruct e as [x|i|i|x| |k r|]; cbn [cstep].
  - apply IH; cbn; [lia|done|set_solver|]. by rewrite lookup_insert_ne by lia.
  - unfold do_push. destruct (cb_calls w !! i) as [[x []]|] eqn:Ei; try (by apply IH). assert (1 ≠ i) as Hi by (intros <-; congruence).
    destruct (cb_rx w); [destruct (bool_decide _)|]; [|by apply IH|].
    + apply IH; cbn; [done| |done|by rewrite lookup_insert_ne]. intros y Hy. apply (Hq y). rewrite !elem_of_app, elem_of_list_singleton in *.
      destruct Hy as [[|[=]]|]; by auto.
    + apply IH; cbn; [done|done|set_solver|by rewrite lookup_insert_ne].
  - unfold do_drop_call. destruct (cb_calls w !! i) as [[x []]|] eqn:Ei; try (by apply IH).
    all: (apply IH; cbn; [done|done|done|]); rewrite lookup_insert_ne; [done|congruence].
  - unfold do_notify. destruct (_ && _); [|by apply IH]. apply IH; cbn; [done| |done|done]. intros y Hy. apply (Hq y).
    rewrite !elem_of_app, elem_of_list_singleton in *. destruct Hy as [[|[=]]|]; by auto.
  - unfold do_take. destruct (cb_queue w) as [|p rest] eqn:Eq; [by apply IH; rewrite ?Eq|]. destruct (cb_rx w); [|by apply IH; rewrite ?Eq].
    apply IH; cbn; [done| |done|done]. intros y Hy. apply (Hq y). rewrite !elem_of_app, elem_of_list_singleton in *. rewrite elem_of_cons.
    destruct Hy as [|[|]]; by auto.
  - unfold do_reply. destruct (cb_taken w !! k) as [[i z]|] eqn:Ek; [|by apply IH]. case_bool_decide as Hi; [|by apply IH].
    assert (1 ≠ i) as Hne. { intros <-. apply elem_of_list_lookup_2 in Ek. apply (Hq z). apply elem_of_app. by right. }
    apply IH; cbn; [done|done|set_solver|]. destruct (cb_calls w !! i) as [[x []]|]; try done. by rewrite lookup_insert_ne.
  - apply IH; cbn; [done| |done|done]. intros y Hy. apply (Hq y). apply elem_of_app. by right.
Qed.
(** What holds: as long as no call is dropped, the slots are those of the calls that have not returned. *)
Theorem C164_partial room es i :
  (∀ j, DropCall j ∉ es) →
  i ∈ cb_map (crun (cworld_init room) es) ↔ ∃ x c, cb_calls (crun (cworld_init room) es) !! i = Some (x, c) ∧ pending c.
Proof.
  intros Hd. split.
  - assert (∀ w, good w → (∀ i, i ∈ cb_map w → ∃ x c, cb_calls w !! i = Some (x, c) ∧ pending c) →
      ∀ i, i ∈ cb_map (crun w es) → ∃ x c, cb_calls (crun w es) !! i = Some (x, c) ∧ pending c) as H.
    2: { apply H; [apply good_init|]. intros j Hj. cbn in Hj. set_solver. }
    clear i. induction es as [|e es IH]; intros w G Hw; [done|]. cbn. apply IH; [|by apply good_step|].
    { intros j Hj. apply (Hd j). by apply elem_of_list_further. }
    clear IH. intros j. destruct e as [x|i|i|x| |k r|]; cbn [cstep].
    + cbn. rewrite elem_of_union, elem_of_singleton. intros Hj. destruct (decide (j = cb_next w)) as [->|Hn].
      * exists x, CSends. rewrite lookup_insert. split; [done|by left].
      * rewrite lookup_insert_ne by done. apply Hw. by destruct Hj.
    + unfold do_push. destruct (cb_calls w !! i) as [[x []]|] eqn:Ei; try (by apply Hw). destruct (cb_rx w); [destruct (bool_decide _)|]; cbn.
      * intros Hj. destruct (decide (j = i)) as [->|Hn]; [exists x, CWaits; rewrite lookup_insert; split; [done|by right]|].
        rewrite lookup_insert_ne by done. by apply Hw.
      * apply Hw.
      * rewrite elem_of_difference, elem_of_singleton. intros [Hj Hn]. rewrite lookup_insert_ne by done. by apply Hw.
    + destruct (Hd i). apply elem_of_list_here.
    + unfold do_notify. destruct (_ && _); apply Hw.
    + unfold do_take. destruct (cb_queue w); [apply Hw|]. destruct (cb_rx w); apply Hw.
    + unfold do_reply. destruct (cb_taken w !! k) as [[i z]|] eqn:Ek; [|apply Hw]. case_bool_decide as Hi; [|apply Hw]. cbn.
      rewrite elem_of_difference, elem_of_singleton. intros [Hj Hn]. destruct (cb_calls w !! i) as [[x []]|]; try (by apply Hw).
      rewrite lookup_insert_ne by done. by apply Hw.
    + apply Hw.
  - intros (x & c & Hc & Hp). by eapply (g_pend _ (good_run room es)).
Qed.
(** And the queue never holds more requests than its length, dropped calls or not. *)
Theorem C164_bounded_partial room es : (length (cb_queue (crun (cworld_init room) es)) ≤ room)%nat.
Proof.
  assert (∀ w, cb_room w = room → (length (cb_queue w) ≤ room)%nat → (length (cb_queue (crun w es)) ≤ room)%nat) as H.
  2: { apply H; cbn; [done|lia]. }
  induction es as [|e es IH]; intros w Hr Hq; [done|]. cbn.
  apply IH; clear IH; destruct e as [y|j|j|y| |l s|]; cbn [cstep].
  all: unfold do_call, do_push, do_drop_call, do_notify, do_take, do_reply, do_drop_rx.
  all: repeat case_match; cbn [cb_queue cb_room]; try done; rewrite ?app_length; cbn [length].
  all: repeat match goal with
    | H : _ && _ = true |- _ => apply andb_true_iff in H as [? ?]
    | H : bool_decide _ = true |- _ => apply bool_decide_eq_true in H
    | H : cb_queue _ = _ |- _ => rewrite ?H; clear H end; cbn [length] in *; lia.
Qed.
Example C164_example :
  elements (cb_map (crun (cworld_init 1) [Call 10; Call 20; Call 30; Push 2; Take; Push 3; Reply 0 5])) = [1; 3] ∨
  elements (cb_map (crun (cworld_init 1) [Call 10; Call 20; Call 30; Push 2; Take; Push 3; Reply 0 5])) = [3; 1].
Proof. vm_compute. by auto. Qed.
Print Assumptions C161_own_answer.
Print Assumptions C162_answered_once.
Print Assumptions C162_no_response.
Print Assumptions C162_first.
Print Assumptions C163_refuted.
Print Assumptions C163_partial.
Print Assumptions C164_refuted.
Print Assumptions C164_partial.
Print Assumptions C164_bounded_partial.
