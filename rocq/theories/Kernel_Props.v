(** Requests, subscriptions and the kernel: the properties C110 to C118. *)
From Coq Require Import ZifyBool ZifyNat ZifyN.
From stdpp Require Import prelude.
From Verif Require Import Kernel_Model Kernel_Spec Kernel_Proofs.

(** ** C110: every result of the node is handed over once, in order, to the right place *)
Theorem C110_order limit es :
  filter not_shutdown (produced (kinit limit) es) =
  handed (krun (kinit limit) es).2 ++ filter not_shutdown (kw_results (krun (kinit limit) es).1).
Proof. apply (order_run es (kinit limit)). Qed.

Theorem C110_routing limit es j :
  fresh [] es →
  let w := (krun (kinit limit) es).1 in
  match (kstep w (Dispatch j)).2 with
  | Some (OSub i r) => ∃ k, is_open w i k ∧ concerns r k
  | Some (OKernel r) => ∀ i k, is_open w i k → ¬ concerns r k
  | _ => True
  end.
Proof.
  intros Hf w. pose proof (good_run es [] (kinit limit) (good_init limit) Hf) as Hg. fold w in Hg.
  pose proof (dispatch_spec w j) as H. destruct (kstep w (Dispatch j)) as [w1 o]. cbn [snd].
  destruct H as [[_ ->]|(r & rest & clean & _ & _ & _ & _ & _ & _ & _ & [(_ & -> & _)|(_ & _ & H)])]; [done..|].
  destruct (find_sub_spec _ w r j Hg) as [F1 F2]. destruct (find_sub j w r) as [i|]; destruct H as [-> _].
  - by apply F1.
  - intros i k Ho Hc. by specialize (F2 i k Ho Hc).
Qed.

(** Two calls wait; a result that concerns neither goes to the kernel. *)
Definition two_calls : list kevent :=
  [Subscribe 1 (RPeer 7); Subscribe 2 RRegister; NodeTake Accepted; NodeTake Accepted;
   NodeEmit (RegisterOkay 2 9); NodeEmit (PeerEvent MutualPeers 1 8); NodeEmit (PeerEvent MutualPeers 1 7);
   Dispatch 0; Dispatch 0; Dispatch 0].
Example C110_example :
  (krun (kinit None) two_calls).2 =
    [OSub 1 (RegisterOkay 2 9); OKernel (PeerEvent MutualPeers 1 8); OSub 0 (PeerEvent MutualPeers 1 7)] ∧
  produced (kinit None) two_calls = [RegisterOkay 2 9; PeerEvent MutualPeers 1 8; PeerEvent MutualPeers 1 7].
Proof. by vm_compute. Qed.

(** ** C111: the stream of a subscription *)
Theorem C111_stream limit es1 t r es2 :
  let w1 := (krun (kinit limit) es1).1 in
  let i := length (kw_subs w1) in
  let k := mk_ckey t (session_cid r) in
  fresh [] (es1 ++ Subscribe t r :: es2) → kw_server w1 = SRun → Forall (keeps i) es2 →
  let '(w2, os) := krun (kstep w1 (Subscribe t r)).1 es2 in
  is_open w2 i k ∧ ¬ ended w2 i ∧ got w2 i = filter (λ x, concerns x k) (handed os).
Proof.
  intros w1 i k Hf Hs Hk. apply fresh_app in Hf as [Hf1 Hf2]. apply fresh_cons in Hf2 as [Hf2 Hf3].
  pose proof (good_run es1 [] (kinit limit) (good_init limit) Hf1) as Hg. fold w1 in Hg.
  pose proof (good_step _ _ _ Hg Hf2) as Hg2. destruct Hf2 as [Hn _].
  assert (Ho : is_open (kstep w1 (Subscribe t r)).1 i k ∧ got (kstep w1 (Subscribe t r)).1 i = []).
  { cbn [kstep]. rewrite (not_used_has _ _ _ _ Hg Hn), Hs. unfold is_open, got. cbn. unfold i.
    rewrite lookup_app_r by lia. rewrite Nat.sub_diag. cbn. split; [by eexists|done]. }
  destruct Ho as [Ho Eg]. pose proof (stream_run es2 _ _ i k Hg2 Ho Hk Hf3) as [H1 H2].
  pose proof (good_run es2 _ _ Hg2 Hf3) as Hg3.
  destruct (krun (kstep w1 (Subscribe t r)).1 es2) as [w2 os]. cbn [fst snd] in *. split; [done|]. split; [by eapply open_not_ended|].
  by rewrite H2, Eg.
Qed.
Example C111_example :
  let w := (krun (kinit None) (two_calls ++ [NodeEmit (PeerEvent OtherSignal 1 7); DropSub 1; Dispatch 0])).1 in
  got w 0 = [PeerEvent MutualPeers 1 7; PeerEvent OtherSignal 1 7] ∧ got w 1 = [RegisterOkay 2 9] ∧
  map fst (kw_map w) = [mk_ckey 1 (Some 7%N)].
Proof. by vm_compute. Qed.

(** ** C112: a refused request is reported to the call that waits for it *)
(** It is not for any call that names a session: the report does not say which session it
    belongs to, and is handed to the kernel instead. *)
Theorem C112_refuted limit t c x o es :
  session_cid (request_of c) = Some x → o = Refused ∨ (o = NoSession ∧ ∀ y, c ≠ CDisconnect y) →
  fresh [t] es → Forall (keeps 0) es → Forall (silent (mk_ckey t (Some x))) es → Forall (other_ticket t) es →
  let es0 := [Subscribe t (request_of c); NodeTake o] in
  produced (kinit limit) es0 = [InternalServerError (Some t) None] ∧
  (krun (kinit limit) (es0 ++ [Dispatch 0])).2 = [OKernel (InternalServerError (Some t) None)] ∧
  let w := (krun (kinit limit) (es0 ++ es)).1 in
  is_open w 0 (mk_ckey t (Some x)) ∧ ¬ ended w 0 ∧ answer c (got w 0) = None.
Proof.
  intros Hx Ho Hf Hk Hs Ht es0.
  assert (Hc : ∀ y, InternalServerError (Some t) None = y → ¬ concerns y (mk_ckey t (Some x))).
  { intros y <- (c' & [= <-] & H). cbn in H. by specialize (H x eq_refl). }
  assert (E0 : (krun (kinit limit) es0) =
    (mk_kworld limit [(mk_ckey t (Some x), 0)] [mk_sub (mk_ckey t (Some x)) true []] [] [InternalServerError (Some t) None] [] SRun (KRun false) None, [])).
  { unfold es0, kinit. cbn [krun kstep kw_map kw_subs kw_server kw_requests map_has existsb running length app set_map set_subs set_requests
      kw_limit kw_results kw_running kw_kernel kw_out]. rewrite Hx. destruct (bool_decide (Some x = Some 0%N)); [done|].
    destruct c; cbn in Hx; try discriminate Hx; destruct Ho as [-> |[-> Hy]]; try done; by destruct (Hy cid). }
  split; [|split].
  - assert (E : produced (kinit limit) es0 = kw_results (krun (kinit limit) es0).1); [|by rewrite E, E0].
    unfold es0. rewrite krun_cons. cbn [fst]. rewrite krun_cons. cbn [fst krun produced]. rewrite app_nil_r.
    replace (kw_results (kstep (kinit limit) (Subscribe t (request_of c))).1) with (@nil nresult); [done|].
    cbn [kstep kinit kw_map map_has existsb kw_server running fst]. done.
  - rewrite krun_app, E0. cbn [fst snd app]. set (w1 := mk_kworld _ _ _ _ _ _ _ _ _). rewrite krun_cons. cbn [snd krun].
    assert (Hroom : live w1 && room w1 = true) by (unfold live, room; cbn; by destruct limit as [[|n]|]).
    assert (Hfs : find_sub 0 (set_results [] w1) (InternalServerError (Some t) None) = None).
    { unfold find_sub. cbn [callback_key w1 kw_map set_results]. rewrite filter_cons_False; [by rewrite filter_nil|].
      unfold fits. cbn. by rewrite andb_false_r. }
    cbn [kstep]. rewrite Hroom. cbn [w1 kw_kernel kw_results]. unfold w1 in Hfs |- *. by rewrite Hfs.
  - rewrite krun_app, E0. cbn [fst]. set (w0 := mk_kworld _ _ _ _ _ _ _ _ _).
    assert (Hg : good [t] w0).
    { pose proof (good_run es0 [] (kinit limit) (good_init limit)) as H. rewrite E0 in H. apply H. cbn. split; [apply not_elem_of_nil|done]. }
    assert (Hop : is_open w0 0 (mk_ckey t (Some x))) by (by eexists).
    destruct (stream_run es [t] w0 0 _ Hg Hop Hk Hf) as [H1 H2]. split; [done|].
    split; [eapply open_not_ended; [|exact H1]; by apply good_run|].
    rewrite H2. destruct (quiet_run t (Some x) es w0) as [_ Hq]; [|done..|].
    + split; [|constructor]. apply Forall_singleton. by apply (Hc _ eq_refl).
    + cbn [got w0 kw_subs lookup]. rewrite (filter_nothing _ _ Hq). by cbn.
Qed.

(** What holds: the calls that name no session, registering and connecting by user name.
    Missing for the full statement: the calls that name one. *)
Theorem C112_partial limit es1 t c o rest i es2 :
  let w1 := (krun (kinit limit) es1).1 in
  fresh [] (es1 ++ NodeTake o :: es2) → c = CRegister ∨ c = CConnect None → o ≠ Accepted →
  kw_server w1 = SRun → kw_requests w1 = (t, request_of c) :: rest → is_open w1 i (mk_ckey t None) →
  Forall (keeps i) es2 →
  let w2 := (kstep w1 (NodeTake o)).1 in
  kw_results w2 = kw_results w1 ++ [InternalServerError (Some t) None] ∧
  let '(w3, os) := krun w2 es2 in
  InternalServerError (Some t) None ∈ handed os →
  InternalServerError (Some t) None ∈ got w3 i ∧ answer c (got w3 i) ≠ None.
Proof.
  intros w1 Hf Hc Ho Hs Hr Hop Hk w2. apply fresh_app in Hf as [Hf1 Hf2]. apply fresh_cons in Hf2 as [Hf2 Hf3].
  assert (E : kw_results w2 = kw_results w1 ++ [InternalServerError (Some t) None]).
  { unfold w2. cbn [kstep]. rewrite Hs, Hr. rewrite bool_decide_eq_false_2 by (destruct Hc as [-> | ->]; done).
    destruct Hc as [-> | ->]; destruct o; done. }
  split; [done|]. pose proof (good_run es1 [] (kinit limit) (good_init limit) Hf1) as Hg. fold w1 in Hg.
  pose proof (good_step _ _ (NodeTake o) Hg Hf2) as Hg2. fold w2 in Hg2.
  destruct (stream_step _ w1 (NodeTake o) i _ Hg Hop) as [Hop2 _]; [done..|]. fold w2 in Hop2.
  destruct (stream_run es2 _ w2 i _ Hg2 Hop2 Hk Hf3) as [_ E3]. destruct (krun w2 es2) as [w3 os]. cbn [fst snd] in *.
  intros Hin. assert (Hgot : InternalServerError (Some t) None ∈ got w3 i).
  { rewrite E3. apply elem_of_app. right. apply elem_of_list_filter. split; [|done]. exists None. split; [done|]. by cbn. }
  split; [done|]. eapply answer_some; [exact Hgot|]. by destruct Hc as [-> | ->].
Qed.
Example C112_example :
  let w := (krun (kinit None) [Subscribe 1 (request_of (CConnect None)); NodeTake Refused; Dispatch 0]).1 in
  got w 0 = [InternalServerError (Some 1%N) None] ∧ answer (CConnect None) (got w 0) = Some false.
Proof. by vm_compute. Qed.
Example C112_refuted_example :
  let '(w, os) := krun (kinit None) [Subscribe 1 (request_of (CRekey 5)); NodeTake NoSession; Dispatch 0; HandlerEnd 0 true] in
  os = [OKernel (InternalServerError (Some 1%N) None)] ∧ answer (CRekey 5) (got w 0) = None.
Proof. by vm_compute. Qed.

(** ** C113: an error in the stream of a call makes it return *)
(** Rekeying and the creation of a group go on waiting, whatever errors arrive. *)
Theorem C113_refuted limit t x errs c :
  c = CRekey x ∨ c = CCreateGroup x → x ≠ 0%N → Forall (λ r, is_error r = true ∧ concerns r (mk_ckey t (Some x))) errs →
  let es := [Subscribe t (request_of c); NodeTake Accepted] ++ (errs ≫= λ r, [NodeEmit r; Dispatch 0]) in
  let w := (krun (kinit limit) es).1 in
  got w 0 = errs ∧ answer c (got w 0) = None.
Proof.
  intros Hc Hx He es w. assert (Hcx : session_cid (request_of c) = Some x) by (destruct Hc as [-> | ->]; done).
  assert (Hw : got w 0 = errs).
  { unfold w, es. rewrite krun_app. cbn [fst].
    assert (E0 : (krun (kinit limit) [Subscribe t (request_of c); NodeTake Accepted]).1 =
      mk_kworld limit [(mk_ckey t (Some x), 0)] [mk_sub (mk_ckey t (Some x)) true []] [] [] [] SRun (KRun false) None).
    { unfold kinit. cbn [krun kstep kw_map kw_subs kw_server kw_requests map_has existsb running length app set_map set_subs set_requests
        kw_limit kw_results kw_running kw_kernel kw_out]. rewrite Hcx. rewrite bool_decide_eq_false_2 by congruence.
      destruct Hc as [-> | ->]; done. }
    rewrite E0. clear es w E0.
    assert (H : ∀ l, got (krun (mk_kworld limit [(mk_ckey t (Some x), 0)] [mk_sub (mk_ckey t (Some x)) true l] [] [] [] SRun (KRun false) None)
      (errs ≫= λ r, [NodeEmit r; Dispatch 0])).1 0 = l ++ errs); [|by apply (H [])].
    induction He as [|r errs [He Hr] Hes IH]; intros l; [cbn; by rewrite app_nil_r|].
    cbn [mbind list_bind]. rewrite krun_app. cbn [fst].
    replace ((krun (mk_kworld limit [(mk_ckey t (Some x), 0)] [mk_sub (mk_ckey t (Some x)) true l] [] [] [] SRun (KRun false) None) [NodeEmit r; Dispatch 0]).1)
      with (mk_kworld limit [(mk_ckey t (Some x), 0)] [mk_sub (mk_ckey t (Some x)) true (l ++ [r])] [] [] [] SRun (KRun false) None).
    { cbn [mbind] in IH. rewrite IH. by rewrite <- (assoc_L (++)). }
    assert (Hns : r ≠ Shutdown) by (by intros ->).
    assert (E1 : kstep (mk_kworld limit [(mk_ckey t (Some x), 0)] [mk_sub (mk_ckey t (Some x)) true l] [] [] [] SRun (KRun false) None) (NodeEmit r) =
      (mk_kworld limit [(mk_ckey t (Some x), 0)] [mk_sub (mk_ckey t (Some x)) true l] [] [r] [] SRun (KRun false) None, None)) by (by destruct r).
    rewrite krun_cons, E1. cbn [fst]. rewrite krun_cons. cbn [fst krun].
    set (w1 := mk_kworld limit _ _ _ [r] _ _ _ _). set (w2 := mk_kworld limit _ _ _ [] _ _ _ _).
    assert (Hfs : find_sub 0 w1 r = Some 0).
    { pose proof (proj2 (fits_concerns r _) Hr) as Hfit. unfold find_sub. cbn [w1 kw_map]. destruct (callback_key r) as [k'|]; [|done].
      rewrite filter_cons_True by done. rewrite filter_nil. cbn. done. }
    assert (Hroom : live w1 && room w1 = true) by (unfold live, room; cbn; by destruct limit as [[|n]|]).
    change (w2 = (kstep w1 (Dispatch 0)).1). cbn [kstep]. rewrite Hroom. cbn [w1 kw_kernel kw_results].
    assert (Hfs' : find_sub 0 (set_results [] w1) r = Some 0) by exact Hfs. unfold w1 in Hfs' |- *.
    destruct r; try done; by rewrite Hfs'. }
  split; [done|]. rewrite Hw. clear Hw. induction He as [|r errs [He _] _ IH]; [done|]. cbn [answer].
  assert (E : consume c r = None) by (destruct Hc as [-> | ->]; by destruct r). by rewrite E.
Qed.

(** All other calls return, with an error.  Missing for the full statement: the two. *)
Theorem C113_partial c l r l' :
  (∀ x, c ≠ CRekey x ∧ c ≠ CCreateGroup x) → is_error r = true → answer c l = None →
  answer c (l ++ r :: l') = Some false.
Proof.
  intros Hc He Ha. rewrite answer_app by done. cbn [answer].
  assert (E : consume c r = Some false); [|by rewrite E].
  destruct c; try (by destruct (Hc cid)); try (unfold consume; by rewrite He). by destruct r.
Qed.
Example C113_example :
  let w := (krun (kinit None) [Subscribe 1 (request_of (CPeers 5)); NodeTake Accepted; NodeEmit (PeerEvent OtherSignal 1 5); Dispatch 0;
                               NodeEmit (InternalServerError (Some 1%N) (Some 5%N)); Dispatch 0]).1 in
  answer (CPeers 5) (got w 0) = Some false ∧ answer (CRekey 5) (got w 0) = None.
Proof. by vm_compute. Qed.

(** ** C114: a waiting call returns when the node has ended *)
(** Neither does its stream end, nor does anything arrive, after execute() has returned. *)
Theorem C114_refuted limit t c es :
  session_cid (request_of c) ≠ Some 0%N → request_of c ≠ RSessions → fresh [t] es → Forall (keeps 0) es →
  let es0 := [Subscribe t (request_of c); Send 0 RShutdown; NodeTake Accepted; NodeTake Accepted; NodeDone; ServerReturns true] in
  (krun (kinit limit) es0).2 = [OReturned XOk] ∧
  let w := (krun (kinit limit) (es0 ++ es)).1 in
  is_open w 0 (mk_ckey t (session_cid (request_of c))) ∧ ¬ ended w 0 ∧ got w 0 = [] ∧ answer c (got w 0) = None.
Proof.
  intros Hx Hr Hf Hk es0.
  set (k := mk_ckey t (session_cid (request_of c))).
  assert (E0 : krun (kinit limit) es0 = (mk_kworld limit [(k, 0)] [mk_sub k true []] [] [Shutdown] [] SDone (KRun false) (Some XOk), [OReturned XOk])).
  { unfold es0, kinit. cbn [krun kstep kw_map kw_subs kw_server kw_requests map_has existsb running length app set_map set_subs set_requests
      kw_limit kw_results kw_running kw_kernel kw_out]. rewrite bool_decide_eq_false_2 by done. destruct c; try done; by destruct Hr. }
  split; [by rewrite E0|]. rewrite krun_app, E0. cbn [fst]. set (w0 := mk_kworld _ _ _ _ _ _ _ _ _).
  assert (Hg : good [t] w0).
  { pose proof (good_run es0 [] (kinit limit) (good_init limit)) as H. rewrite E0 in H. apply H. cbn. split; [apply not_elem_of_nil|done]. }
  assert (Hop : is_open w0 0 k) by (by eexists).
  destruct (stream_run es [t] w0 0 _ Hg Hop Hk Hf) as [H1 H2]. split; [done|].
  split; [eapply open_not_ended; [|exact H1]; by apply good_run|].
  assert (E : got (krun w0 es).1 0 = []); [|by rewrite E].
  rewrite H2, dead_run by done. done.
Qed.
(** What ends a stream is the end of the subscription itself.  Missing for the full
    statement: that the end of the node ends it too. *)
Theorem C114_partial limit es i k :
  fresh [] es → is_open (krun (kinit limit) es).1 i k → ended (krun (kinit limit) (es ++ [DropSub i])).1 i.
Proof.
  intros Hf Ho. set (w := (krun (kinit limit) es).1) in *.
  assert (E : (krun (kinit limit) (es ++ [DropSub i])).1 = (kstep w (DropSub i)).1) by (rewrite krun_app, krun_cons; done).
  rewrite E. pose proof (good_run es [] _ (good_init limit) Hf) as Hg. fold w in Hg.
  pose proof (good_step _ w (DropSub i) Hg I) as Hg2. intros k' Hk'. destruct (g_sub _ _ Hg2 _ _ Hk') as (s & Hs & _ & Hop).
  destruct Ho as (s0 & Hs0 & _ & Ho). cbn [kstep] in Hs. rewrite Hs0, Ho in Hs. cbn in Hs.
  rewrite list_lookup_insert in Hs by by eapply lookup_lt_Some. by injection Hs as <-.
Qed.
Example C114_example : ended (krun (kinit None) [Subscribe 1 (RPeer 5); NodeTake Accepted; DropSub 0]).1 0.
Proof. intros k. vm_compute. intros H. inversion H. Qed.

(** ** C115: a new subscription leaves the others as they are *)
(** With a ticket that is in use it takes the place of the other one, and is refused. *)
Theorem C115_refuted limit t q x j :
  concerns x (mk_ckey t (session_cid q)) → x ≠ Shutdown → limit ≠ Some 1 →
  let '(w, os) := krun (kinit limit) [Subscribe t q; Subscribe t q; NodeEmit x; Dispatch j] in
  is_open w 0 (mk_ckey t (session_cid q)) ∧ (∀ k, ¬ is_open w 1 k) ∧ ended w 0 ∧ got w 0 = [] ∧ os = [OKernel x].
Proof.
  intros Hc Hx Hl. set (k := mk_ckey t (session_cid q)) in *.
  assert (E0 : krun (kinit limit) [Subscribe t q; Subscribe t q; NodeEmit x] =
    (mk_kworld limit [(k, 1)] [mk_sub k true []; mk_sub k false []] [(t, q)] [x] [] SRun (KRun false) None, [])).
  { unfold kinit. cbn [krun kstep kw_map kw_subs kw_server kw_requests map_has existsb running length app set_map set_subs set_requests
      kw_limit kw_results kw_running kw_kernel kw_out fst]. fold k. rewrite bool_decide_eq_true_2 by done. cbn [orb].
    unfold map_remove. rewrite filter_cons_False by (cbn; by intros H). rewrite filter_nil. cbn [app]. by destruct x. }
  change [Subscribe t q; Subscribe t q; NodeEmit x; Dispatch j] with ([Subscribe t q; Subscribe t q; NodeEmit x] ++ [Dispatch j]).
  rewrite krun_app, E0. cbn [fst snd app]. set (w1 := mk_kworld _ _ _ _ _ _ _ _ _). rewrite krun_cons. cbn [fst snd krun].
  assert (Hroom : live w1 && room w1 = true) by (unfold live, room; cbn; by destruct limit as [[|n]|]).
  assert (Hfs : find_sub j w1 x = None).
  { unfold find_sub. destruct (callback_key x); [|done]. cbn [w1 kw_map]. rewrite filter_cons, filter_nil. destruct (decide _).
    - cbn [length]. by rewrite Nat.mod_1_r.
    - by rewrite lookup_nil. }
  assert (E : kstep w1 (Dispatch j) = (mk_kworld limit [(k, 1)] [mk_sub k true []; mk_sub k false []] [(t, q)] [] [(x, false)] SRun (KRun false) None, Some (OKernel x))).
  { cbn [kstep]. rewrite Hroom. cbn [w1 kw_kernel kw_results]. assert (Hfs' : find_sub j (set_results [] w1) x = None) by exact Hfs.
    unfold w1 in Hfs' |- *. destruct x; try done; by rewrite Hfs'. }
  rewrite E. cbn [fst snd option_list app]. repeat split.
  - by eexists.
  - intros k' (s & Hs & _ & Ho). cbn in Hs. injection Hs as <-. done.
  - intros k' Hk'. cbn in Hk'. apply elem_of_list_singleton in Hk'. done.
Qed.
(** Tickets are drawn at random; as long as they differ, nothing is disturbed.  Missing for
    the full statement: the ticket in use. *)
Theorem C115_partial limit es t q i k :
  fresh [] (es ++ [Subscribe t q]) →
  let w := (krun (kinit limit) es).1 in
  is_open w i k → let w' := (kstep w (Subscribe t q)).1 in is_open w' i k ∧ got w' i = got w i ∧ ¬ ended w' i.
Proof.
  intros Hf w Ho w'. apply fresh_app in Hf as [Hf1 Hf2]. pose proof (good_run es [] _ (good_init limit) Hf1) as Hg. fold w in Hg.
  destruct (stream_step _ w (Subscribe t q) i k Hg Ho) as [H1 H2]; [done..|]. split; [done|]. split.
  - unfold w'. rewrite H2. cbn [kstep]. destruct (map_has (mk_ckey t (session_cid q)) (kw_map w)), (running (kw_server w)); cbn; by rewrite app_nil_r.
  - eapply open_not_ended; [by apply good_step|done].
Qed.
Example C115_example :
  let '(w, os) := krun (kinit None) [Subscribe 1 (RPeer 5); Subscribe 2 (RPeer 5); NodeEmit (PeerEvent MutualPeers 1 5); Dispatch 0] in
  os = [OSub 0 (PeerEvent MutualPeers 1 5)] ∧ got w 1 = [].
Proof. by vm_compute. Qed.

(** ** C116: the delivery to subscriptions does not depend on the kernel *)
(** With a limit on concurrency, as many busy handlers hold up everything: nothing is
    delivered any more, to no subscription, until one of them ends. *)
Definition busy (t : N) (n : nat) : list kevent := mjoin (replicate n [NodeEmit (SessionList (t + 1)); Dispatch 0]).
Lemma busy_run limit t x q n : ∀ m,
  (match limit with Some (S l) => m + n ≤ S l | _ => True end)%nat →
  let w m := mk_kworld limit [(mk_ckey t x, 0)] [mk_sub (mk_ckey t x) true []] q [] (replicate m (SessionList (t + 1), false)) SRun (KRun false) None in
  krun (w m) (busy t n) = (w (m + n)%nat, replicate n (OKernel (SessionList (t + 1)))).
Proof.
  induction n as [|n IH]; intros m Hl w; [by rewrite Nat.add_0_r|]. unfold busy. cbn [replicate mjoin list_join].
  rewrite krun_app. change (mjoin (replicate n _)) with (busy t n).
  assert (E : krun (w m) [NodeEmit (SessionList (t + 1)); Dispatch 0] = (w (S m), [OKernel (SessionList (t + 1))])).
  { rewrite krun_cons. cbn [kstep fst snd option_list app]. rewrite krun_cons. cbn [fst snd krun].
    assert (Hroom : live (emit (SessionList (t + 1)) (w m)) && room (emit (SessionList (t + 1)) (w m)) = true).
    { unfold live, room. cbn. rewrite replicate_length. destruct limit as [[|l]|]; [done| |done]. apply Nat.leb_le. lia. }
    assert (Hfs : find_sub 0 (set_results [] (emit (SessionList (t + 1)) (w m))) (SessionList (t + 1)) = None).
    { unfold find_sub. cbn [callback_key]. replace (filter _ _) with (@nil (ckey * nat)); [done|]. symmetry. apply filter_nothing.
      cbn. apply Forall_singleton. unfold fits. cbn. intros [H _]%andb_prop. apply N.eqb_eq in H. lia. }
    cbn [kstep]. rewrite Hroom. change (kw_results (emit (SessionList (t + 1)) (w m))) with [SessionList (t + 1)].
    change (kw_kernel (emit (SessionList (t + 1)) (w m))) with (KRun false). cbv beta iota zeta. rewrite Hfs. cbn.
    by rewrite <- replicate_S_end. }
  rewrite E. cbn [fst snd]. unfold w in IH |- *. rewrite IH by (destruct limit as [[|l]|]; lia). cbn [fst snd app replicate].
  f_equal. f_equal. f_equal. lia.
Qed.
Lemma busy_start n t x :
  krun (mk_kworld (Some (S n)) [(mk_ckey t x, 0)] [mk_sub (mk_ckey t x) true []] [] [] [] SRun (KRun false) None) (busy t (S n)) =
  (mk_kworld (Some (S n)) [(mk_ckey t x, 0)] [mk_sub (mk_ckey t x) true []] [] [] (replicate (S n) (SessionList (t + 1), false)) SRun (KRun false) None,
   replicate (S n) (OKernel (SessionList (t + 1)))).
Proof. refine (busy_run (Some (S n)) t x [] (S n) 0 _). lia. Qed.
Lemma subscribe_start limit t q :
  session_cid q ≠ Some 0%N → q ≠ RShutdown → q ≠ RSessions →
  (krun (kinit limit) [Subscribe t q; NodeTake Accepted]).1 =
  mk_kworld limit [(mk_ckey t (session_cid q), 0)] [mk_sub (mk_ckey t (session_cid q)) true []] [] [] [] SRun (KRun false) None.
Proof.
  intros H1 H2 H3. unfold kinit. cbn [krun kstep kw_map kw_subs kw_server kw_requests map_has existsb running length app set_map set_subs set_requests
    kw_limit kw_results kw_running kw_kernel kw_out]. rewrite bool_decide_eq_false_2 by done. by destruct q.
Qed.
Lemma emit_start w x : x ≠ Shutdown → (krun w [NodeEmit x]).1 = emit x w.
Proof. by destruct x. Qed.
Theorem C116_refuted n t q x es :
  concerns x (mk_ckey t (session_cid q)) → session_cid q ≠ Some 0%N → q ≠ RShutdown → q ≠ RSessions → x ≠ Shutdown →
  Forall no_handler_ends es → Forall (keeps 0) es → fresh [t] es →
  let es0 := [Subscribe t q; NodeTake Accepted] ++ busy t (S n) ++ [NodeEmit x] in
  let w0 := (krun (kinit (Some (S n))) es0).1 in
  is_open w0 0 (mk_ckey t (session_cid q)) ∧ kw_results w0 = [x] ∧
  let '(w, os) := krun w0 es in got w 0 = [] ∧ handed os = [].
Proof.
  intros Hc Hq0 Hq1 Hq2 Hx Hn Hk Hf es0 w0.
  set (k := mk_ckey t (session_cid q)).
  assert (E0 : w0 = mk_kworld (Some (S n)) [(k, 0)] [mk_sub k true []] [] [x] (replicate (S n) (SessionList (t + 1), false)) SRun (KRun false) None).
  { unfold w0, es0. rewrite krun_app, krun_app, subscribe_start by done. cbn [fst]. rewrite busy_start. cbn [fst]. unfold k. by rewrite emit_start. }
  clearbody w0. assert (Ho : is_open w0 0 k) by (rewrite E0; by eexists). split; [done|]. split; [by rewrite E0|].
  assert (Hg : good [t] w0).
  { rewrite E0. split; cbn.
    - intros k' i' [= -> ->]%elem_of_list_singleton. by eexists.
    - intros k' i' (s & Hs & <- & _). cbn in Hs. destruct i'; [|done]. injection Hs as <-. by apply elem_of_list_singleton.
    - intros k1 k2 i1 i2 [= -> ->]%elem_of_list_singleton [= -> ->]%elem_of_list_singleton. done.
    - apply NoDup_singleton.
    - intros k' i' [= -> ->]%elem_of_list_singleton. by left. }
  destruct (stream_run es [t] w0 0 k Hg Ho Hk Hf) as [_ H]. pose proof (full_run es w0 Hn) as Hh.
  destruct (krun w0 es) as [w os]. cbn [fst snd] in *.
  assert (E : handed os = []). { apply Hh. exists n. rewrite E0. cbn [kw_limit kw_running]. split; [done|]. by rewrite replicate_length. }
  split; [|done]. rewrite H, E. rewrite E0. done.
Qed.
(** Without a limit (the default), the next result reaches its subscription whatever the
    handlers do.  Missing for the full statement: executors with a limit. *)
Theorem C116_partial limit es clean r rest i k j :
  limit = None ∨ limit = Some 0 → fresh [] es →
  let w := (krun (kinit limit) es).1 in
  kw_kernel w = KRun clean → kw_out w = None → kw_results w = r :: rest → is_open w i k → concerns r k →
  let '(w', o) := kstep w (Dispatch j) in o = Some (OSub i r) ∧ got w' i = got w i ++ [r] ∧ kw_results w' = rest.
Proof.
  intros Hl Hf w Hk Ho Hr Hop Hc. pose proof (good_run es [] _ (good_init limit) Hf) as Hg. fold w in Hg.
  destruct (stream_step _ w (Dispatch j) i k Hg Hop) as [_ Hgot]; [done..|].
  assert (E : (kstep w (Dispatch j)).2 = Some (OSub i r) ∧ kw_results (kstep w (Dispatch j)).1 = rest).
  { cbn [kstep]. rewrite Hk, Hr. unfold live. rewrite Ho. unfold room. replace (kw_limit w) with limit by (symmetry; apply limit_run).
    assert (Hfs : find_sub j (set_results rest w) r = Some i) by (by apply (proj2 (find_sub_spec _ w r j Hg) i k)).
    rewrite Hfs. assert (r ≠ Shutdown) by (intros ->; by apply (shutdown_not_concerns k)).
    destruct Hl as [-> | ->]; by destruct r. }
  destruct (kstep w (Dispatch j)) as [w' o]. cbn [fst snd] in *. destruct E as [-> E]. split; [done|]. split; [|done]. rewrite Hgot.
  cbn. by rewrite decide_True.
Qed.
(** A handler that itself waits for the answer to a request never gets it. *)
Example C116_example :
  let es := [NodeEmit (SessionList 9); Dispatch 0; Subscribe 1 (RPeer 5); NodeTake Accepted; NodeEmit (PeerEvent MutualPeers 1 5); Dispatch 0] in
  got (krun (kinit (Some 1)) es).1 0 = [] ∧ got (krun (kinit None) es).1 0 = [PeerEvent MutualPeers 1 5].
Proof. by vm_compute. Qed.

(** ** C117: on_stop is called once, and has returned before execute() returns *)
(** execute() also returns when the node has ended, wherever the kernel is. *)
Theorem C117_refuted limit es :
  let es0 := [Send 1 RShutdown; NodeTake Accepted; NodeDone; ServerReturns true] in
  (krun (kinit limit) (es0 ++ es)).2 = [OReturned XOk].
Proof.
  intros es0. rewrite krun_app. assert (E : krun (kinit limit) es0 = (mk_kworld limit [] [] [] [Shutdown] [] SDone (KRun false) (Some XOk), [OReturned XOk])) by done.
  rewrite E. cbn [fst snd]. by rewrite dead_run.
Qed.
Theorem C117_interrupted_refuted limit es :
  let es0 := [Send 1 RShutdown; NodeTake Accepted; Dispatch 0; CleanStop; NodeDone; Alerted; ServerReturns true] in
  (krun (kinit limit) (es0 ++ es)).2 = [OOnStop; OReturned XOk].
Proof.
  intros es0. rewrite krun_app.
  assert (E : krun (kinit limit) es0 = (mk_kworld limit [] [] [] [] [] SDone (KOnStop XOk) (Some XOk), [OOnStop; OReturned XOk]))
    by (destruct limit as [[|n]|]; done).
  rewrite E. cbn [fst snd]. by rewrite dead_run.
Qed.
(** If the kernel is first, it is so.  Missing for the full statement: the runs in which
    the future of the node is first. *)
Theorem C117_partial limit es res :
  Forall kernel_first es → OReturned res ∈ (krun (kinit limit) es).2 →
  ends (krun (kinit limit) es).2 = [OOnStop; OStopped; OReturned res].
Proof.
  intros Hf Hr. pose proof (stage_run es (kinit limit) Hf (or_introl eq_refl)) as E. cbn [stage kinit kw_kernel kw_out app] in E.
  assert (Hin : OReturned res ∈ ends (krun (kinit limit) es).2) by (apply elem_of_list_filter; done).
  rewrite <- E in Hin |- *.
  assert (Ho : in_order (krun (kinit limit) es).1).
  { clear E Hr Hin. assert (Hi : in_order (kinit limit)) by (by left). revert Hf Hi. generalize (kinit limit). induction es as [|e es IH]; intros w Hf Hi; [done|].
    apply Forall_cons in Hf as [Hf1 Hf2]. rewrite krun_cons. cbn [fst]. apply IH; [done|]. by apply stage_step. }
  unfold stage in *. destruct Ho as [Ho|[r Ho]].
  - rewrite Ho in Hin. rewrite app_nil_r in Hin. destruct (kw_kernel _); repeat (apply elem_of_cons in Hin as [?|Hin]; [done|]); by apply elem_of_nil in Hin.
  - rewrite Ho in Hin |- *. destruct (kw_out _) as [res'|].
    + cbn [app] in Hin. repeat (apply elem_of_cons in Hin as [Hin|Hin]; [try done|]); [|by apply elem_of_nil in Hin]. by injection Hin as ->.
    + cbn [app] in Hin. repeat (apply elem_of_cons in Hin as [?|Hin]; [done|]); by apply elem_of_nil in Hin.
Qed.
Example C117_example :
  (krun (kinit None) [Send 1 RShutdown; NodeTake Accepted; Dispatch 0; CleanStop; NodeDone; Alerted; OnStopEnd true; KernelReturns]).2 =
    [OOnStop; OStopped; OReturned XOk].
Proof. by vm_compute. Qed.

(** ** C118: a failing handler makes execute() return an error *)
(** The shutdown it asks for can end the node, or the loop, before its error is returned. *)
Theorem C118_refuted limit t es :
  let es0 := [NodeEmit (SessionList t); Dispatch 0; HandlerEnd 0 false; HandlerSent 0; NodeTake Accepted; NodeDone; ServerReturns true] in
  (krun (kinit limit) (es0 ++ es)).2 = [OKernel (SessionList t); OReturned XOk].
Proof.
  intros es0. rewrite krun_app.
  assert (E : krun (kinit limit) es0 = (mk_kworld limit [] [] [] [Shutdown] [(SessionList t, true)] SDone (KStopping XHandler) (Some XOk),
    [OKernel (SessionList t); OReturned XOk])) by (destruct limit as [[|n]|]; done).
  rewrite E. cbn [fst snd]. by rewrite dead_run.
Qed.
(** The same within the loop: the user shuts the node down while the handler fails. *)
Theorem C118_clean_refuted t :
  (krun (kinit None) [NodeEmit (SessionList t); Dispatch 0; Send 1 RShutdown; NodeTake Accepted; HandlerEnd 0 false; Dispatch 0; CleanStop; NodeDone;
    Alerted; OnStopEnd true; KernelReturns]).2 = [OKernel (SessionList t); OOnStop; OStopped; OReturned XOk].
Proof. done. Qed.
(** Once the shutdown of a failed handler has been sent and the loop has seen its error,
    and the kernel is first, execute() does not return without an error.  Missing for the
    full statement: the two races above. *)
Theorem C118_partial limit es i r es' :
  let w := (krun (kinit limit) es).1 in
  kw_running w !! i = Some (r, true) → (∃ clean, kw_kernel w = KRun clean) → kw_out w = None → Forall kernel_first es' →
  OReturned XOk ∉ (krun w (HandlerSent i :: es')).2.
Proof.
  intros w Hr [clean Hk] Ho Hf. rewrite krun_cons. cbn [snd].
  assert (H : failing (kstep w (HandlerSent i)).1 ∧ (kstep w (HandlerSent i)).2 = None).
  { cbn [kstep]. rewrite Hk, Hr. unfold live, failing. rewrite Ho. destruct (kw_server w); cbn; rewrite Ho; done. }
  destruct H as [H ->]. cbn [option_list app]. by apply failing_run.
Qed.
Example C118_example :
  (krun (kinit None) [NodeEmit (SessionList 3); Dispatch 0; HandlerEnd 0 false; HandlerSent 0; NodeTake Accepted; NodeDone;
     Alerted; OnStopEnd true; KernelReturns]).2 = [OKernel (SessionList 3); OOnStop; OStopped; OReturned XHandler].
Proof. by vm_compute. Qed.

Print Assumptions C110_order.
Print Assumptions C110_routing.
Print Assumptions C111_stream.
(** Every request that is not accepted, and every question, is answered with its ticket. *)
Theorem C112_answered w t r rest o :
  kw_server w = SRun → kw_requests w = (t, r) :: rest → r ≠ RShutdown → o ≠ Accepted ∨ r = RSessions →
  ∃ x k, kw_results (kstep w (NodeTake o)).1 = kw_results w ++ [x] ∧ callback_key x = Some k ∧ k_ticket k = t.
Proof.
  intros Hs Hr Hsd Ho. cbn [kstep]. rewrite Hs, Hr. destruct (bool_decide (session_cid r = Some 0%N)).
  - eexists _, _. done.
  - destruct r; try done; destruct o; try (by destruct Ho); try (eexists _, _; done).
Qed.

Print Assumptions C112_refuted.
Print Assumptions C112_partial.
Print Assumptions C112_answered.
Print Assumptions C113_refuted.
Print Assumptions C113_partial.
Print Assumptions C114_refuted.
Print Assumptions C114_partial.
Print Assumptions C115_refuted.
Print Assumptions C115_partial.
Print Assumptions C116_refuted.
Print Assumptions C116_partial.
Print Assumptions C117_refuted.
Print Assumptions C117_interrupted_refuted.
Print Assumptions C117_partial.
Print Assumptions C118_refuted.
Print Assumptions C118_clean_refuted.
Print Assumptions C118_partial.
