(** C28, C29, C30, C39, C61 to C63: the server's message groups and mailboxes. *)
From Coq Require Import ZifyBool ZifyNat ZifyN.
From stdpp Require Import prelude gmap.
From Verif Require Import GroupServer_Model GroupServer_Spec GroupServer_Proofs.
Local Open Scope N_scope.

Definition srv : server := sv_init {[1; 2; 3]} (λ _ _, false).
Definition k1 : gkey := (1, 7).

(** ** C28. The claim is false: account 2 asks to join the private group of account 1 and accepts its own request; it
    is then a member, and the owner's next message is sent to it.  The owner never did anything about account 2. *)
Definition break_in : list event :=
  [EConnect 1; EConnect 2; EReq 1 (RCreate 7 false [3]); EReq 2 (RRequestJoin 2 k1); EReq 2 (RAccept 2 k1);
   EReq 1 (RMessage 1 k1 [42])].

Theorem C28_refuted :
  ∃ acc mut h s out k p, sv_run (sv_init acc mut) h = (s, out) ∧ private_group s k ∧ member s k p ∧ p ≠ k.1 ∧
    ¬ let_in h k p ∧ copies p (NMessage 1 k [42]) out = 1%nat.
Proof.
  exists {[1; 2; 3]}, (λ _ _, false), break_in, (sv_run srv break_in).1, (sv_run srv break_in).2, k1, 2.
  split; [by destruct (sv_run _ _)|]. split; [by eexists|]. split; [by vm_compute|].
  split; [done|]. split; [|done].
  unfold let_in, invited, break_in. intros [[(pub & inv & Hi & Hp)|(inv & Hi & Hp)]|Hi];
    repeat (apply elem_of_cons in Hi as [Hi|Hi]; [try discriminate Hi|]); try by apply not_elem_of_nil in Hi.
  injection Hi as _ ->. set_solver.
Qed.

(** What does hold: a member of a private group was invited by the owner or asked to join itself, and somebody
    (anybody) sent an acceptance for it.  Missing from the full claim: that it was the owner who accepted. *)
Theorem C28_members_asked_partial acc mut h s out k p :
  sv_run (sv_init acc mut) h = (s, out) → private_group s k → member s k p → p ≠ k.1 →
  (invited h k p ∨ asked h k p) ∧ accepted h k p.
Proof.
  intros E (g & Hg & Hp) Hm Hne. unfold roster in Hm. rewrite Hg in Hm.
  destruct (members_asked _ _ _ _ _ _ _ E Hg) as [_ HB]. destruct (HB p Hm Hne) as [[? _]|?]; [congruence|done].
Qed.

(** And if nobody but the owner and invited peers sends acceptances, the owner does decide. *)
Theorem C28_if_owner_accepts_partial acc mut h s out k p :
  (∀ c t, EReq c (RAccept t k) ∈ h → c = k.1 ∨ invited h k t) →
  sv_run (sv_init acc mut) h = (s, out) → private_group s k → member s k p → p ≠ k.1 → let_in h k p.
Proof.
  intros Hd E Hp Hm Hne. destruct (C28_members_asked_partial _ _ _ _ _ _ _ E Hp Hm Hne) as [_ [c Hc]].
  destruct (Hd _ _ Hc) as [->|Hi]; [by right|by left].
Qed.

Example C28_ex :
  let '(s, out) := sv_run srv [EConnect 1; EConnect 3; EReq 1 (RCreate 7 false [3]); EReq 3 (RAccept 3 k1);
                               EReq 2 (RAccept 2 k1)] in
  member s k1 3 ∧ ¬ member s k1 2 ∧ private_group s k1.
Proof. split; [|split]; [by vm_compute|by vm_compute|by eexists]. Qed.

(** ** C29, for clients that put their own account into the packet header (GroupWire_Props has the others).  In every state of the server, an event makes a copy of a group message for a peer exactly if it is the
    sending of that message, the peer is then in the group and not the sender, and it has a session (the copy is
    sent) or at least an account (it is mailed); and then exactly one. *)
Theorem C29_exactly_the_members_partial s c x k m p s' out :
  sv_step s (EReq c (RMessage x k m)) = (s', out) →
  copies p (NMessage x k m) out =
    if bool_decide (member s k p ∧ p ≠ c ∧ (p ∈ sv_sessions s ∨ p ∈ sv_accounts s)) then 1%nat else 0%nat.
Proof. intros E. rewrite (step_messages _ _ _ _ p x k m E). repeat case_bool_decide; naive_solver. Qed.

Theorem C29_nothing_else s e s' out p x k m :
  sv_step s e = (s', out) → (∀ c, e ≠ EReq c (RMessage x k m)) → copies p (NMessage x k m) out = 0%nat.
Proof.
  intros E Hn. rewrite (step_messages _ _ _ _ p x k m E). destruct e as [c []| | | |]; try done.
  rewrite bool_decide_false; [done|]. intros [[= -> -> ->] _]. by destruct (Hn c).
Qed.

(** After the peer left, was kicked, or the group was ended, it is not in the group, and gets no message of the group
    along any events none of which lets it in again. *)
Theorem C29_removed_gets_nothing s e s1 out1 es s2 out2 k p x m :
  sv_step s e = (s1, out1) →
  (e = EReq p (RLeave k) ∨ (∃ l, e = EReq k.1 (RKick k l) ∧ p ∈ l)) ∨ e = EReq k.1 (REnd k) ∨ e = EShutdown k.1 →
  Forall (λ e, ¬ admits k p e) es → sv_run s1 es = (s2, out2) →
  ¬ member s1 k p ∧ ¬ member s2 k p ∧ copies p (NMessage x k m) out2 = 0%nat.
Proof.
  intros E He Hf E2. pose proof (removed_out _ _ _ _ _ _ E He) as Hm. split; [done|]. by eapply run_out.
Qed.

Example C29_ex :
  let '(s, out) := sv_run srv
    [EConnect 1; EConnect 2; EReq 1 (RCreate 7 true [3]); EReq 2 (RRequestJoin 2 k1); EReq 3 (RAccept 3 k1);
     EReq 1 (RMessage 1 k1 [5]); EReq 1 (RKick k1 [2]); EReq 1 (RMessage 1 k1 [6])] in
  copies 1 (NMessage 1 k1 [5]) out = 0%nat ∧ copies 2 (NMessage 1 k1 [5]) out = 1%nat ∧
  copies 3 (NMessage 1 k1 [5]) out = 1%nat ∧ copies 2 (NMessage 1 k1 [6]) out = 0%nat ∧
  copies 3 (NMessage 1 k1 [6]) out = 1%nat ∧ Mailed 3 (NMessage 1 k1 [6]) ∈ out.
Proof. vm_compute. split_and!; try done. repeat (apply elem_of_list_here || apply elem_of_list_further). Qed.

(** ** C30, for clients that put their own account into the packet header (GroupWire_Props has the others).  Along any sequence of signals, none of them from the owner, and of other events except the end of the
    owner's session, a group stays, and every member that does not itself leave stays in it. *)
Theorem C30_only_the_owner_removes_partial s es s' out k p :
  sv_run s es = (s', out) →
  Forall (λ e, e ≠ EShutdown k.1 ∧ ∀ r, e ≠ EReq k.1 r) es → is_Some (get_group s k) →
  is_Some (get_group s' k) ∧ (EReq p (RLeave k) ∉ es → member s k p → member s' k p).
Proof.
  revert s s' out. induction es as [|e es IH]; intros s s' out; cbn [sv_run].
  - intros [= <- <-]. done.
  - destruct (sv_step s e) as [s1 x1] eqn:E1. destruct (sv_run s1 es) as [s2 x2] eqn:E2.
    intros [= <- <-] [[He Hr] Hf]%Forall_cons [g Hg].
    destruct (step_change _ _ _ _ k E1) as [(c & r & -> & _)|[Hs|[-> _]]]; [| |done].
    + assert (Hc : c ≠ k.1) by (intros ->; by destruct (Hr r)).
      destruct (non_owner_keeps _ _ _ _ _ _ _ E1 Hc Hg) as (g' & Hg' & _ & Hk).
      destruct (IH _ _ _ E2 Hf (ex_intro _ _ Hg')) as [HS HM]. split; [done|].
      intros [Hp Hq]%not_elem_of_cons Hm. apply HM; [done|]. unfold roster in *. rewrite Hg in Hm. rewrite Hg'.
      apply Hk; [|done]. destruct (decide (p = c)) as [->|?]; [right; congruence|by left].
    + destruct (IH _ _ _ E2 Hf) as [HS HM]; [by rewrite Hs, Hg|]. split; [done|].
      intros [Hp Hq]%not_elem_of_cons Hm. apply HM; [done|]. unfold roster in *. by rewrite Hs.
Qed.

(** A signal of a non-owner keeps the group and everybody in it, but itself if it leaves. *)
Theorem C30_one_signal_partial s c r s' out k g :
  sv_step s (EReq c r) = (s', out) → c ≠ k.1 → get_group s k = Some g →
  ∃ g', get_group s' k = Some g' ∧ mg_public g' = mg_public g ∧ (∀ p, p ≠ c ∨ r ≠ RLeave k → p ∈ mg_members g → p ∈ mg_members g').
Proof. apply non_owner_keeps. Qed.

Example C30_ex :
  let '(s, out) := sv_run srv
    [EConnect 1; EConnect 2; EReq 1 (RCreate 7 true [3]); EReq 2 (RRequestJoin 2 k1); EReq 3 (RAccept 3 k1);
     EReq 2 (REnd k1); EReq 2 (RKick k1 [1; 3]); EReq 3 (RLeave k1)] in
  member s k1 1 ∧ member s k1 2 ∧ ¬ member s k1 3.
Proof. by vm_compute. Qed.

(** ** C39. The claim is false: the end of a session empties the mailbox in a separate task that runs after the
    session has left the session map; mail put in between (or put in before a reconnect overtakes that task) is lost. *)
Theorem C39_refuted :
  ∃ acc mut h s out p n, sv_run (sv_init acc mut) h = (s, out) ∧ p ∈ acc ∧
    mailed p out = [n] ∧ handed p out = [] ∧ box s p = [] ∧ p ∈ sv_sessions s.
Proof.
  exists {[1; 2; 3]}, (λ _ _, false), [EConnect 2; EClear 2; EMail 2 9; EShutdown 2; EConnect 2].
  eexists _, _, 2, (NOther 9). split; [apply surjective_pairing|]. by vm_compute.
Qed.

(** What does hold: what an account was handed and what is still in its box is, in order, part of what was mailed to
    it: nothing twice, nothing of another account.  Missing from the full claim: that nothing is lost. *)
Theorem C39_at_most_once_partial acc mut h s out p :
  sv_run (sv_init acc mut) h = (s, out) → handed p out ++ box s p `sublist_of` mailed p out.
Proof. intros E. exact (run_mail _ _ _ _ p E). Qed.

(** Over a stretch in which the account's mailbox is not emptied by the end of one of its sessions, it is everything
    mailed to it, in order; and connecting empties the box. *)
Theorem C39_exactly_once_partial s es s' out p :
  sv_run s es = (s', out) → EShutdown p ∉ es → handed p out ++ box s' p = box s p ++ mailed p out.
Proof. apply run_mail_exact. Qed.
Theorem C39_next_connect_partial s es s' out p :
  sv_run s (es ++ [EConnect p]) = (s', out) → EShutdown p ∉ es → handed p out = box s p ++ mailed p out ∧ box s' p = [].
Proof.
  intros E Hn. assert (Hb : box s' p = []).
  { rewrite sv_run_snoc in E. destruct (sv_run s es) as [s1 x]. cbn [sv_step connect] in E. injection E as <- _.
    unfold box. cbn [sv_mail]. by rewrite lookup_delete. }
  split; [|done]. rewrite <- (run_mail_exact _ _ _ _ p E), Hb, app_nil_r; [done|]. set_solver.
Qed.

Example C39_ex :
  let '(s, out) := sv_run srv
    [EConnect 1; EMail 2 8; EMail 3 4; EMail 2 9; EReq 1 (RCreate 7 true []); EReq 2 (RRequestJoin 2 k1);
     EReq 1 (RMessage 1 k1 [5]); EConnect 2; EConnect 2] in
  handed 2 out = [NOther 8; NOther 9; NMessage 1 k1 [5]] ∧ handed 3 out = [] ∧ box s 3 = [NOther 4].
Proof. by vm_compute. Qed.

(** ** C61 is false: account 2, which is not in the group, sends a message to it and signs it as account 3. *)
Definition spoof : list event :=
  [EConnect 1; EConnect 2; EConnect 3; EReq 1 (RCreate 7 false [3]); EReq 3 (RAccept 3 k1); EReq 2 (RMessage 3 k1 [66])].
Theorem C61_refuted :
  ∃ acc mut h c x k m s s' out p, sv_run (sv_init acc mut) h = (s, out) ∧
    sv_step s (EReq c (RMessage x k m)) = (s', [Sent p (NMessage x k m); Sent x (NMessage x k m); Sent c (NResponse k true)]) ∧
    ¬ member s k c ∧ x ≠ c ∧ member s k p.
Proof.
  exists {[1; 2; 3]}, (λ _ _, false), (take 5 spoof), 2, 3, k1, [66].
  eexists _, _, _, 1. split; [apply surjective_pairing|]. split; [|by vm_compute].
  rewrite (surjective_pairing (sv_step _ _)). f_equal.
Qed.
(** What does hold: a message comes only from some session's sending of it.  Missing: that the sender is a member and
    the one named. *)
Theorem C61_some_session_partial acc mut h s out p x k m :
  sv_run (sv_init acc mut) h = (s, out) → copies p (NMessage x k m) out ≠ 0%nat →
  ∃ c, EReq c (RMessage x k m) ∈ h ∧ c ≠ p.
Proof.
  revert s out. induction h as [|e h IH] using rev_ind; intros s out; [by intros [= <- <-]|].
  rewrite sv_run_snoc. destruct (sv_run (sv_init acc mut) h) as [s1 x1] eqn:E1.
  destruct (sv_step s1 e) as [s2 x2] eqn:E2. intros [= <- <-]. rewrite copies_app, (step_messages _ _ _ _ p x k m E2).
  intros Hc. destruct (decide (copies p (NMessage x k m) x1 = 0%nat)) as [Hz|Hz].
  - rewrite Hz in Hc. destruct e as [c []| | | |]; try done. case_bool_decide as Hd; [|done].
    destruct Hd as ([= -> -> ->] & _ & Hpc & _). exists c. split; [set_solver|done].
  - destruct (IH _ _ eq_refl Hz) as (c & Hin & Hpc). exists c. split; [set_solver|done].
Qed.

(** ** C62 is false: the invitations of a new group go to accounts that are not registered with the owner, and anybody
    joins a public group. *)
Theorem C62_refuted :
  ∃ acc mut h s out k p q, sv_run (sv_init acc mut) h = (s, out) ∧ (∀ a b, mut a b = false) ∧
    Sent p (NInvitation k.1 k) ∈ out ∧ member s k q ∧ q ≠ k.1.
Proof.
  exists {[1; 2; 3]}, (λ _ _, false), [EConnect 1; EConnect 2; EConnect 3; EReq 1 (RCreate 7 true [3]); EReq 2 (RRequestJoin 2 k1)].
  eexists _, _, k1, 3, 2. split; [apply surjective_pairing|]. split; [done|]. split; [|by vm_compute].
  vm_compute. repeat (apply elem_of_list_here || apply elem_of_list_further).
Qed.
(** What does hold: the peers put on the list by a later invitation are registered with the owner. *)
Theorem C62_add_partial s c k inv s' out g g' p :
  sv_step s (EReq c (RAdd k inv)) = (s', out) → get_group s k = Some g → get_group s' k = Some g' →
  p ∈ mg_pending g' → p ∉ mg_pending g → c = k.1 ∧ p ∈ inv ∧ sv_mutual s c p = true.
Proof.
  intros E Hg Hg' Hp Hn. pose proof (handle_change _ _ _ _ _ k E) as HC. rewrite Hg, Hg' in HC.
  inversion HC as [| | | | | | |? ? ? Hr|inv' g0 pend Hr Hc Hpe]; subst; try done.
  naive_solver.
Qed.

(** ** C63 is false: account 2, a stranger to the group, turns down the invitation of account 3. *)
Theorem C63_refuted :
  ∃ acc mut h c k p s1 out1 s2 out2,
    sv_run (sv_init acc mut) h = (s1, out1) ∧ sv_run (sv_init acc mut) (h ++ [EReq c (RDecline p k)]) = (s2, out2) ∧
    c ≠ k.1 ∧ c ≠ p ∧ ¬ member s1 k c ∧ invited h k p ∧
    member (sv_step s1 (EReq p (RAccept p k))).1 k p ∧ ¬ member (sv_step s2 (EReq p (RAccept p k))).1 k p.
Proof.
  exists {[1; 2; 3]}, (λ _ _, false), (take 4 spoof), 2, k1, 3. eexists _, _, _, _.
  split; [apply surjective_pairing|]. split; [apply surjective_pairing|].
  split; [done|]. split; [done|]. split; [by vm_compute|]. split; [|by vm_compute].
  left. exists false, [3]. split; [|set_solver]. unfold spoof. cbn [take]. set_solver.
Qed.

(** What holds: an invitation that has reached the invitee stays open until an acceptance or a refusal that names the
    invitee, or until the owner ends the group or goes.  Missing: refusals that somebody else sends in the invitee's name. *)
Theorem C63_partial s k p h :
  awaits s k p → (∀ e, e ∈ h → ¬ settles k p e) →
  awaits (sv_run s h).1 k p ∧ member (sv_step (sv_run s h).1 (EReq p (RAccept p k))).1 k p.
Proof. intros Ha Hn. pose proof (awaits_run h s k p Hn Ha) as H. split; [done|]. by apply awaits_accept. Qed.
Theorem C63_invited_partial s k p :
  (∀ g inv, get_group s k = Some g → p ∈ inv → sv_mutual s k.1 p = true → awaits (sv_step s (EReq k.1 (RAdd k inv))).1 k p) ∧
  (∀ pub inv s' es, sv_step s (EReq k.1 (RCreate k.2 pub inv)) = (s', es) → Sent k.1 (NCreated (Some k)) ∈ es → p ∈ inv →
     awaits s' k p).
Proof.
  split.
  - intros g inv. apply awaits_add.
  - intros pub inv s' es Hs He Hp. destruct k as [o i]. cbn [fst snd] in *. by eapply awaits_create.
Qed.
Lemma awaits_check s k p :
  (match get_group s k with Some g => bool_decide (p ∈ mg_pending g) | None => false end) = true → awaits s k p.
Proof. unfold awaits. destruct (get_group s k) as [g|]; [|done]. intros H%bool_decide_eq_true. by exists g. Qed.
(** the owner invites 3, another session tries to remove it and asks to join itself; then 3 accepts *)
Example C63_ex :
  let s := (sv_run (sv_init {[1; 2; 3]} (λ _ _, true)) [EConnect 1; EConnect 2; EConnect 3; EReq 1 (RCreate 7 false [3])]).1 in
  let h := [EReq 2 (RKick k1 [3]); EReq 2 (RRequestJoin 2 k1); EReq 2 (REnd k1); EReq 1 (RDecline 2 k1)] in
  awaits s k1 3 ∧ Forall (λ e, ¬ settles k1 3 e) h ∧
  bool_decide (member (sv_run s (h ++ [EReq 3 (RAccept 3 k1)])).1 k1 3) = true.
Proof.
  intros s h. split_and!; [|repeat (apply Forall_cons; split); try apply Forall_nil; cbn; naive_solver|by vm_compute].
  apply awaits_check. by vm_compute.
Qed.

Print Assumptions C28_refuted.
Print Assumptions C28_members_asked_partial.
Print Assumptions C28_if_owner_accepts_partial.
Print Assumptions C29_exactly_the_members_partial.
Print Assumptions C29_nothing_else.
Print Assumptions C29_removed_gets_nothing.
Print Assumptions C30_only_the_owner_removes_partial.
Print Assumptions C30_one_signal_partial.
Print Assumptions C39_refuted.
Print Assumptions C39_at_most_once_partial.
Print Assumptions C39_exactly_once_partial.
Print Assumptions C39_next_connect_partial.
Print Assumptions C61_refuted.
Print Assumptions C61_some_session_partial.
Print Assumptions C62_refuted.
Print Assumptions C62_add_partial.
Print Assumptions C63_refuted.
Print Assumptions C63_partial.
Print Assumptions C63_invited_partial.
