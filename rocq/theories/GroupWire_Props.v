(** C29, C30: what the properties of message groups come to when clients choose the account in
    the packet header. *)
From Coq Require Import ZifyBool ZifyNat ZifyN.
From stdpp Require Import prelude gmap.
From Verif Require Import GroupServer_Model GroupServer_Spec GroupServer_Proofs GroupServer_Props GroupWire_Model.
Local Open Scope N_scope.

Lemma redirect_own c e : (∀ n, e = Sent c n → True) → (match e with Sent to n => is_reply n = true → to = c | _ => True end) → redirect c e = e.
Proof. intros _. destruct e as [to n| |]; cbn; [|done..]. destruct (is_reply n); [|done]. by intros ->. Qed.
Definition replies_to (c : N) (e : effect) : Prop := match e with Sent to n => is_reply n = true → to = c | _ => True end.
Lemma redirect_all c out : Forall (replies_to c) out → redirect c <$> out = out.
Proof. induction 1 as [|e out H _ IH]; [done|]. cbn. rewrite IH. f_equal. apply redirect_own; [done|]. by destruct e. Qed.

Lemma direct_replies c s p n es : direct s p n = Some es → is_reply n = false → Forall (replies_to c) es.
Proof. unfold direct. case_bool_decide; [|done]. intros [= <-] Hn. constructor; [|done]. cbn. by rewrite Hn. Qed.
Lemma direct_default c s p n : is_reply n = false → Forall (replies_to c) (default [] (direct s p n)).
Proof. intros Hn. destruct (direct s p n) as [es|] eqn:E; [|constructor]. by eapply direct_replies. Qed.
Lemma direct_many c s ps n : is_reply n = false → Forall (replies_to c) (mjoin ((λ p, default [] (direct s p n)) <$> ps)).
Proof. intros Hn. induction ps as [|p ps IH]; cbn; [constructor|]. apply Forall_app. split; [by apply direct_default|done]. Qed.
Lemma send_all_replies c s l n es told mail failed :
  is_reply n = false → send_all s l n = (es, told, mail, failed) → Forall (replies_to c) es.
Proof.
  intros Hn. revert es told mail failed. induction l as [|[p ok] l IH]; intros es told mail failed; cbn [send_all].
  - intros [= <- _ _ _]. constructor.
  - destruct (send_all s l n) as [[[es' told'] mail'] failed']. destruct ok.
    + destruct (direct s p n) as [e|] eqn:E; intros [= <- _ _ _]; [apply Forall_app; split; [eapply direct_replies; [exact E|done]|]|]; by eapply IH.
    + intros [= <- _ _ _]. by eapply IH.
Qed.
Lemma group_signal_replies c s l n s' es told failed :
  is_reply n = false → group_signal s l n = (s', es, told, failed) → Forall (replies_to c) es.
Proof.
  intros Hn. unfold group_signal. destruct (send_all s l n) as [[[es' told'] mail'] failed'] eqn:E. intros [= _ <- _ _].
  apply Forall_app. split; [by eapply send_all_replies|]. apply Forall_fmap, Forall_forall. by intros.
Qed.
Lemma broadcast_replies c s from k n s' es ok : is_reply n = false → broadcast s from k n = (s', es, ok) → Forall (replies_to c) es.
Proof.
  intros Hn. unfold broadcast. destruct (get_peers s k); [|intros [= _ <- _]; constructor].
  destruct (group_signal _ _ _) as [[[s1 es1] t1] f1] eqn:E. intros [= _ <- _]. by eapply group_signal_replies.
Qed.
Lemma kick_replies c s b cid k ps s' es ok : kick_from_group s b cid k ps = (s', es, ok) → Forall (replies_to c) es.
Proof.
  unfold kick_from_group. destruct (remove_peers s k ps) as [[[s1 rem] left]|]; [|intros [= _ <- _]; constructor].
  destruct (group_signal s1 _ _) as [[[s2 es1] t1] f1] eqn:E1. destruct (group_signal s2 _ _) as [[[s3 es2] t2] f2] eqn:E2. intros [= _ <- _].
  apply Forall_app. split; eapply group_signal_replies; [|exact E1| |exact E2]; done.
Qed.
Lemma handle_replies s c r s' out : handle s c r = (s', out) → Forall (replies_to c) out.
Proof.
  assert (Hone : ∀ n, Forall (replies_to c) [Sent c n]) by (intros n; by repeat constructor).
  destruct r as [id pub inv|x k|o|k|x k m|t k|t k|k|k inv|k ps|k j pl|k j pl|k ep pl|k t pl]; cbn [handle].
  - destruct (create_new_message_group s c inv id pub) as [s1 [k|]]; intros [= _ <-]; [|done]. apply Forall_app. split; [by apply direct_many|done].
  - destruct (get_group s k); [|by intros [= _ <-]]. destruct (request_join _ c k) as [s1 [[]|]]; [by intros [= _ <-]| |by intros [= _ <-]].
    destruct (direct s1 k.1 _) eqn:E; intros [= _ <-]; [|done]. apply Forall_app. split; [eapply direct_replies; [exact E|done]|done].
  - by intros [= _ <-].
  - destruct (negb _); [intros [= _ <-]; constructor|]. destruct (pl_remove_group s k) as [s1 [g|]]; intros [= _ <-]; [|done]. apply Forall_app. split; [by apply direct_many|done].
  - destruct (broadcast s c k _) as [[s1 es] ok] eqn:E. intros [= _ <-]. apply Forall_app. split; [eapply broadcast_replies; [|exact E]; done|done].
  - destruct (upgrade_peer s k t) as [s1 []]; [|by intros [= _ <-]]. destruct (broadcast s1 c k _) as [[s2 es] ok] eqn:E. intros [= _ <-]. apply Forall_app. split; [eapply broadcast_replies; [|exact E]; done|done].
  - destruct (remove_pending s k t) as [s1 ok]. destruct (direct s1 t _) eqn:E; intros [= _ <-]; [|done]. apply Forall_app. split; [eapply direct_replies; [exact E|done]|done].
  - destruct (kick_from_group s false c k [c]) as [[s1 es] ok] eqn:E. intros [= _ <-]. apply Forall_app. split; [eapply kick_replies; exact E|done].
  - destruct (negb _); [intros [= _ <-]; constructor|]. destruct (get_group s k); [|by intros [= _ <-]].
    destruct (group_signal s _ _) as [[[s1 es] ok] failed] eqn:E. intros [= _ <-]. apply Forall_app. split; [eapply group_signal_replies; [|exact E]; done|done].
  - destruct (negb _); [intros [= _ <-]; constructor|]. destruct (kick_from_group s true c k ps) as [[s1 es] ok] eqn:E. intros [= _ <-]. apply Forall_app. split; [eapply kick_replies; exact E|done].
  - intros [= _ <-]. by apply direct_default.
  - intros [= _ <-]. by apply direct_default.
  - destruct (broadcast s c k _) as [[s1 es] ok] eqn:E. intros [= _ <-]. eapply broadcast_replies; [|exact E]; done.
  - intros [= _ <-]. by apply direct_default.
Qed.

(** With clients that put their own account into the header, the server is the one of
    GroupServer_Model, of which C28 to C30, C39 and C61 to C63 are proved or refuted. *)
Lemma wire_honest s es evs : mapM own_header es = Some evs → wire_run s es = sv_run s evs.
Proof.
  revert s evs. induction es as [|e es IH]; intros s evs; cbn [mapM wire_run].
  - by intros [= <-].
  - intros (ev & E & (evs' & Es & [= <-])%bind_Some)%bind_Some. cbn [sv_run].
    assert (Hs : wire_step s e = sv_step s ev).
    { destruct e as [c h r|e]; cbn in E |- *.
      - destruct (N.eqb_spec h c) as [-> |]; [|done]. injection E as <-. cbn. destruct (handle s c r) as [s1 out] eqn:Eh. f_equal. apply redirect_all. by eapply handle_replies.
      - destruct e; simplify_eq; done. }
    rewrite Hs. destruct (sv_step s ev) as [s1 x]. by rewrite (IH s1 evs' Es).
Qed.

(** C30 is false: account 2 ends the group of account 1, or removes account 3 from it, by
    putting account 1 into the header. *)
Definition founded : list wevent :=
  [WOther (EConnect 1); WOther (EConnect 2); WOther (EConnect 3); WReq 1 1 (RCreate 7 false [3]); WReq 3 3 (RAccept 3 k1)].
Definition wat (es : list wevent) : server := (wire_run srv es).1.
Theorem C30_refuted :
  ∃ acc mut es c h r s out s' out' k p,
    wire_run (sv_init acc mut) es = (s, out) ∧ is_Some (mapM own_header es) ∧ wire_step s (WReq c h r) = (s', out') ∧
    c ≠ k.1 ∧ c ≠ p ∧ member s k p ∧ ¬ member s' k p ∧ Sent c (NResponse k true) ∈ out'.
Proof.
  exists {[1; 2; 3]}, (λ _ _, false), founded, 2, 1, (RKick k1 [3]). eexists _, _, _, _, k1, 3.
  split; [apply surjective_pairing|]. split; [by eexists|]. split; [apply surjective_pairing|]. split; [done|]. split; [done|]. split; [by vm_compute|]. split; [by vm_compute|].
  assert (Hd : (wire_step (wire_run srv founded).1 (WReq 2 1 (RKick k1 [3]))).2 = [Sent 3 (NDisconnected k1); Sent 2 (NResponse k1 true)]) by (by vm_compute).
  change (wire_run (sv_init {[1; 2; 3]} (λ _ _, false)) founded) with (wire_run srv founded). rewrite Hd. apply elem_of_list_further, elem_of_list_here.
Qed.
Theorem C30_end_refuted :
  ∃ acc mut es c h r s out s' out' k,
    wire_run (sv_init acc mut) es = (s, out) ∧ is_Some (mapM own_header es) ∧ wire_step s (WReq c h r) = (s', out') ∧
    c ≠ k.1 ∧ is_Some (get_group s k) ∧ get_group s' k = None.
Proof.
  exists {[1; 2; 3]}, (λ _ _, false), founded, 2, 1, (REnd k1). eexists _, _, _, _, k1.
  split; [apply surjective_pairing|]. split; [by eexists|]. split; [apply surjective_pairing|]. split; [done|]. split; [by eexists|]. by vm_compute.
Qed.

(** C29 is false: the one who is left out is not the sender but the one named in the header. *)
Theorem C29_refuted :
  ∃ acc mut es c h x k m s out s' out' p,
    wire_run (sv_init acc mut) es = (s, out) ∧ is_Some (mapM own_header es) ∧ wire_step s (WReq c h (RMessage x k m)) = (s', out') ∧
    member s k p ∧ p ≠ c ∧ p ∈ sv_sessions s ∧ copies p (NMessage x k m) out' = 0%nat ∧
    member s k c ∧ copies c (NMessage x k m) out' = 1%nat.
Proof.
  exists {[1; 2; 3]}, (λ _ _, false), founded, 3, 1, 3, k1, [42]. eexists _, _, _, _, 1.
  split; [apply surjective_pairing|]. split; [by eexists|]. split; [apply surjective_pairing|]. by vm_compute.
Qed.

(** What holds whatever the header says: the message reaches exactly the members other than the
    account in the header, once each.  Missing: that this account is the sender's. *)
Theorem C29_header_partial s c h x k m p s' out :
  wire_step s (WReq c h (RMessage x k m)) = (s', out) →
  copies p (NMessage x k m) out =
    if bool_decide (member s k p ∧ p ≠ h ∧ (p ∈ sv_sessions s ∨ p ∈ sv_accounts s)) then 1%nat else 0%nat.
Proof.
  cbn [wire_step]. destruct (handle s h (RMessage x k m)) as [s1 o1] eqn:E. intros [= <- <-].
  rewrite <- (C29_exactly_the_members_partial s h x k m p s1 o1 E). clear E.
  induction o1 as [|e o1 IH]; [done|]. cbn. rewrite IH. f_equal. destruct e as [to n| |]; cbn; [|done..].
  destruct (is_reply n) eqn:Er; [|done]. destruct n; try done; cbn; repeat case_bool_decide; naive_solver.
Qed.
(** and only a signal under the owner's account ends a group or removes others from it.
    Missing: that it came from the owner. *)
Theorem C30_header_partial s c h r s' out k g :
  wire_step s (WReq c h r) = (s', out) → h ≠ k.1 → get_group s k = Some g →
  ∃ g', get_group s' k = Some g' ∧ mg_public g' = mg_public g ∧ (∀ p, p ≠ h ∨ r ≠ RLeave k → p ∈ mg_members g → p ∈ mg_members g').
Proof.
  cbn [wire_step]. destruct (handle s h r) as [s1 o1] eqn:E. intros [= <- <-]. exact (non_owner_keeps s h r s1 o1 k g E).
Qed.

Example wire_ex :
  wire_run srv founded = sv_run srv [EConnect 1; EConnect 2; EConnect 3; EReq 1 (RCreate 7 false [3]); EReq 3 (RAccept 3 k1)].
Proof. by apply wire_honest. Qed.
Print Assumptions C30_refuted. Print Assumptions C30_end_refuted. Print Assumptions C29_refuted.
Print Assumptions C29_header_partial. Print Assumptions C30_header_partial.
