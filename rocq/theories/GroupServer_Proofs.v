(** Proofs about the server's message groups and mailboxes. *)
From Coq Require Import ZifyBool ZifyNat ZifyN.
From stdpp Require Import prelude gmap.
From Verif Require Import GroupServer_Model GroupServer_Spec.
Local Open Scope N_scope.

(** ** The group table *)

Lemma get_set_group s k g k' :
  is_Some (get_group s k) →
  get_group (set_group s k g) k' = if bool_decide (k' = k) then Some g else get_group s k'.
Proof.
  intros [g0 Hg]. unfold get_group, set_group in *. destruct k as [o i], k' as [o' i']. cbn [fst snd] in *.
  destruct (sv_groups s !! o) as [m|] eqn:E; [|discriminate].
  unfold with_groups. cbn [sv_groups].
  destruct (decide (o' = o)) as [->|Ho].
  - rewrite lookup_insert. destruct (decide (i' = i)) as [->|Hi].
    + rewrite lookup_insert, bool_decide_true; done.
    + rewrite lookup_insert_ne by congruence. rewrite bool_decide_false by congruence. by rewrite E.
  - rewrite lookup_insert_ne by congruence. rewrite bool_decide_false by congruence. done.
Qed.

Lemma set_group_other s k g :
  sv_accounts (set_group s k g) = sv_accounts s ∧ sv_sessions (set_group s k g) = sv_sessions s ∧
  sv_mail (set_group s k g) = sv_mail s ∧ sv_mutual (set_group s k g) = sv_mutual s.
Proof. unfold set_group. by destruct (sv_groups s !! k.1). Qed.

Lemma get_add_mail s to n k : get_group (add_mail s to n) k = get_group s k.
Proof. unfold add_mail. by case_bool_decide. Qed.
Lemma get_add_mails s l n k : get_group (foldl (λ s p, add_mail s p n) s l) k = get_group s k.
Proof. revert s. induction l as [|p l IH]; intros s; [done|]. cbn [foldl]. by rewrite IH, get_add_mail. Qed.

Lemma group_signal_group s l n s' es a b k :
  group_signal s l n = (s', es, a, b) → get_group s' k = get_group s k.
Proof.
  unfold group_signal. destruct (send_all s l n) as [[[x y] z] w]. intros [= <- _ _ _]. apply get_add_mails.
Qed.
Lemma broadcast_group s c k n s' es b k' :
  broadcast s c k n = (s', es, b) → get_group s' k' = get_group s k'.
Proof.
  unfold broadcast. destruct (get_peers s k) as [l|]; [|by intros [= <- _ _]].
  destruct (group_signal _ _ _) as [[[s1 e1] a] f] eqn:E. intros [= <- _ _]. by eapply group_signal_group.
Qed.

Lemma elem_remove_each ms l ms' r p :
  remove_each ms l = (ms', r) → p ∈ ms' ↔ p ∈ ms ∧ p ∉ l.
Proof.
  revert ms ms' r. induction l as [|q l IH]; intros ms ms' r; cbn [remove_each].
  - intros [= <- <-]. set_solver.
  - case_bool_decide as Hq.
    + destruct (remove_each (ms ∖ {[q]}) l) as [m2 r2] eqn:E. intros [= <- <-].
      rewrite (IH _ _ _ E). set_solver.
    + intros E. rewrite (IH _ _ _ E). set_solver.
Qed.

Lemma remove_peers_group s k l s' a b k' :
  remove_peers s k l = Some (s', a, b) →
  ∃ g, get_group s k = Some g ∧ ∃ ms, (∀ p, p ∈ ms ↔ p ∈ mg_members g ∧ p ∉ l) ∧ b = elements ms ∧
    get_group s' k' = if bool_decide (k' = k) then Some (mk_mgroup ms (mg_pending g) (mg_public g)) else get_group s k'.
Proof.
  unfold remove_peers. destruct (get_group s k) as [g|] eqn:E; [|done].
  destruct (remove_each (mg_members g) l) as [ms r] eqn:Er. intros [= <- <- <-].
  exists g. split; [done|]. exists ms. split; [|split; [done|]].
  - intros p. by eapply elem_remove_each.
  - apply get_set_group. by rewrite E.
Qed.
Lemma kick_group s b c k l s' es ok k' :
  kick_from_group s b c k l = (s', es, ok) →
  (get_group s k = None ∧ s' = s) ∨
  ∃ g, get_group s k = Some g ∧ ∃ ms, (∀ p, p ∈ ms ↔ p ∈ mg_members g ∧ p ∉ l) ∧
    get_group s' k' = if bool_decide (k' = k) then Some (mk_mgroup ms (mg_pending g) (mg_public g)) else get_group s k'.
Proof.
  unfold kick_from_group. destruct (remove_peers s k l) as [[[s1 r] m]|] eqn:E.
  - destruct (remove_peers_group _ _ _ _ _ _ k' E) as (g & Hg & ms & Hms & _ & Hk).
    destruct (group_signal s1 _ _) as [[[s2 e1] a1] f1] eqn:E1.
    destruct (group_signal s2 _ _) as [[[s3 e2] a2] f2] eqn:E2.
    intros [= <- _ _]. right. exists g. split; [done|]. exists ms. split; [done|].
    by rewrite (group_signal_group _ _ _ _ _ _ _ _ E2), (group_signal_group _ _ _ _ _ _ _ _ E1).
  - intros [= <- _ _]. left. split; [|done]. unfold remove_peers in E.
    destruct (get_group s k); [|done]. by destruct (remove_each _ _).
Qed.

(** ** One signal, as seen by one group *)

(** what a signal can do to the group k *)
Inductive group_change (s : server) (c : N) (r : req) (k : gkey) : option mgroup → option mgroup → Prop :=
| gc_same o : group_change s c r k o o
| gc_create pub inv : r = RCreate k.2 pub inv → c = k.1 →
    group_change s c r k None (Some (mk_mgroup {[c]} (list_to_set inv) pub))
| gc_pending x g pend : r = RRequestJoin x k → mg_public g = false → (∀ p, p ∈ pend ↔ p = c ∨ p ∈ mg_pending g) →
    group_change s c r k (Some g) (Some (mk_mgroup (mg_members g) pend false))
| gc_join x g pend ms : r = RRequestJoin x k → mg_public g = true → (∀ p, p ∈ pend ↔ p = c ∨ p ∈ mg_pending g) →
    (∀ p, p ∈ ms ↔ p = c ∨ p ∈ mg_members g) →
    group_change s c r k (Some g) (Some (mk_mgroup ms pend true))
| gc_end g : r = REnd k → c = k.1 → group_change s c r k (Some g) None
| gc_accept t g ms pend : r = RAccept t k → t ∈ mg_pending g → (∀ p, p ∈ ms ↔ p = t ∨ p ∈ mg_members g) →
    (∀ p, p ∈ pend ↔ p ∈ mg_pending g ∧ p ≠ t) →
    group_change s c r k (Some g) (Some (mk_mgroup ms pend (mg_public g)))
| gc_decline t g pend : r = RDecline t k → (∀ p, p ∈ pend ↔ p ∈ mg_pending g ∧ p ≠ t) →
    group_change s c r k (Some g) (Some (mk_mgroup (mg_members g) pend (mg_public g)))
| gc_remove l g ms : (r = RLeave k ∧ l = [c]) ∨ (r = RKick k l ∧ c = k.1) →
    (∀ p, p ∈ ms ↔ p ∈ mg_members g ∧ p ∉ l) →
    group_change s c r k (Some g) (Some (mk_mgroup ms (mg_pending g) (mg_public g)))
| gc_add inv g pend : r = RAdd k inv → c = k.1 →
    (∀ p, p ∈ pend ↔ p ∈ mg_pending g ∨ (p ∈ inv ∧ sv_mutual s c p = true)) →
    group_change s c r k (Some g) (Some (mk_mgroup (mg_members g) pend (mg_public g))).

Lemma send_all_told s l n es a b f p :
  send_all s l n = (es, a, b, f) → p ∈ a ++ b ↔ (p, true) ∈ l.
Proof.
  revert es a b f. induction l as [|[q ok] l IH]; intros es a b f; cbn [send_all].
  - intros [= <- <- <- <-]. set_solver.
  - destruct (send_all s l n) as [[[es' a'] b'] f'] eqn:E. specialize (IH _ _ _ _ eq_refl).
    destruct ok.
    + destruct (direct s q n) as [e|]; intros [= <- <- <- <-]; set_solver.
    + intros [= <- <- <- <-]. set_solver.
Qed.
Lemma group_signal_told s l n s' es a f p :
  group_signal s l n = (s', es, a, f) → p ∈ a ↔ (p, true) ∈ l.
Proof.
  unfold group_signal. destruct (send_all s l n) as [[[x y] z] w] eqn:E. intros [= _ _ <- _].
  by eapply send_all_told.
Qed.

Lemma get_add_pending s k l k' :
  get_group (add_pending s k l) k' =
  if bool_decide (k' = k)
  then match get_group s k with
       | Some g => Some (mk_mgroup (mg_members g) (mg_pending g ∪ list_to_set l) (mg_public g)) | None => None end
  else get_group s k'.
Proof.
  unfold add_pending. destruct (get_group s k) as [g|] eqn:E.
  - rewrite get_set_group by by rewrite E. by case_bool_decide.
  - case_bool_decide; [|done]. by subst.
Qed.

Lemma mgroup_eta g : mk_mgroup (mg_members g) (mg_pending g) (mg_public g) = g.
Proof. by destruct g. Qed.

Lemma handle_change s c r s' es k :
  handle s c r = (s', es) → group_change s c r k (get_group s k) (get_group s' k).
Proof.
  destruct r as [id pub inv|x k0|o|k0|x k0 m|t k0|t k0|k0|k0 inv|k0 ps|k0 j pl|k0 j pl|k0 e pl|k0 t pl]; cbn [handle].
  - unfold create_new_message_group. destruct (sv_groups s !! c) as [m|] eqn:E; [|intros [= <- _]; constructor].
    case_bool_decide; [|intros [= <- _]; constructor].
    destruct (m !! id) eqn:Ei; intros [= <- _]; [constructor|].
    unfold get_group, with_groups. cbn [sv_groups]. destruct k as [o i]. cbn [fst snd].
    destruct (decide (o = c)) as [->|Ho].
    + rewrite E, lookup_insert. destruct (decide (i = id)) as [->|Hi].
      * rewrite Ei, lookup_insert. by eapply (gc_create s c _ (c, id) pub inv).
      * rewrite lookup_insert_ne by congruence. constructor.
    + rewrite lookup_insert_ne by congruence. constructor.
  - destruct (get_group s k0) as [g|] eqn:E; [|intros [= <- _]; constructor].
    unfold request_join. rewrite get_add_pending, bool_decide_true, E by done. cbn [mg_public mg_members mg_pending].
    assert (Hs : is_Some (get_group (add_pending s k0 [c]) k0))
      by (rewrite get_add_pending, bool_decide_true, E by done; by eexists).
    destruct (mg_public g) eqn:Ep.
    + intros [= <- _]. rewrite get_set_group by done. rewrite get_add_pending.
      case_bool_decide; subst; [|constructor]. rewrite E.
      eapply gc_join; [done|done| |]; set_solver.
    + destruct (direct _ _ _); intros [= <- _]; rewrite get_add_pending;
        (case_bool_decide; subst; [|constructor]); rewrite E, Ep;
        (eapply gc_pending; [done|done|]; set_solver).
  - intros [= <- _]; constructor.
  - unfold permission_gate. destruct (N.eqb_spec c k0.1) as [Hc|]; cbn [negb]; [|intros [= <- _]; constructor].
    unfold pl_remove_group. destruct (sv_groups s !! k0.1) as [m|] eqn:E; [|intros [= <- _]; constructor].
    assert (Hgoal : group_change s c (REnd k0) k (get_group s k)
      (get_group (with_groups s (<[k0.1:=delete k0.2 m]> (sv_groups s))) k)).
    { unfold get_group, with_groups. cbn [sv_groups]. destruct k as [o i], k0 as [o0 i0]. cbn [fst snd] in *.
      destruct (decide (o = o0)) as [->|Ho].
      - rewrite lookup_insert, E. destruct (decide (i = i0)) as [->|Hi].
        + rewrite lookup_delete. destruct (m !! i0); [|constructor]. by apply gc_end.
        + rewrite lookup_delete_ne by congruence. constructor.
      - rewrite lookup_insert_ne by congruence. constructor. }
    destruct (m !! k0.2); intros [= <- _]; exact Hgoal.
  - destruct (broadcast _ _ _ _) as [[s1 e1] ok] eqn:E. intros [= <- _].
    rewrite (broadcast_group _ _ _ _ _ _ _ k E). constructor.
  - unfold upgrade_peer. destruct (get_group s k0) as [g|] eqn:E; [|intros [= <- _]; constructor].
    case_bool_decide; [|intros [= <- _]; constructor].
    destruct (broadcast _ _ _ _) as [[s1 e1] ok] eqn:Eb. intros [= <- _].
    rewrite (broadcast_group _ _ _ _ _ _ _ k Eb), get_set_group by by rewrite E.
    case_bool_decide; subst; [|constructor]. rewrite E. eapply gc_accept; [done|done| |]; set_solver.
  - unfold remove_pending. destruct (get_group s k0) as [g|] eqn:E.
    + case_bool_decide.
      * destruct (direct _ _ _); intros [= <- _]; (rewrite get_set_group by by rewrite E);
          (case_bool_decide; subst; [|constructor]); rewrite E; (eapply gc_decline; [done|]; set_solver).
      * destruct (direct _ _ _); intros [= <- _]; constructor.
    + destruct (direct _ _ _); intros [= <- _]; constructor.
  - destruct (kick_from_group _ _ _ _ _) as [[s1 e1] ok] eqn:E. intros [= <- _].
    destruct (kick_group _ _ _ _ _ _ _ _ k E) as [[Hn ->]|(g & Hg & ms & Hms & Hk)]; [constructor|].
    rewrite Hk. case_bool_decide; subst; [|constructor]. rewrite Hg.
    eapply gc_remove; [left; by split|]. done.
  - unfold permission_gate. destruct (N.eqb_spec c k0.1) as [Hc|]; cbn [negb]; [|intros [= <- _]; constructor].
    destruct (get_group s k0) as [g|] eqn:E; [|intros [= <- _]; constructor].
    destruct (group_signal _ _ _) as [[[s1 e1] ok] f] eqn:Eg. intros [= <- _].
    rewrite get_add_pending, !(group_signal_group _ _ _ _ _ _ _ _ Eg).
    case_bool_decide; subst; [|constructor]. rewrite E.
    eapply gc_add; [done|done|]. intros p.
    rewrite elem_of_union, elem_of_list_to_set, (group_signal_told _ _ _ _ _ _ _ p Eg), elem_of_list_fmap.
    split; [intros [Hp|(q & Hq & Hi)]; [by left|right]; by injection Hq as -> <-|].
    intros [Hp|[Hp Hm]]; [by left|right]. exists p. by rewrite Hm.
  - unfold permission_gate. destruct (N.eqb_spec c k0.1) as [Hc|]; cbn [negb]; [|intros [= <- _]; constructor].
    destruct (kick_from_group _ _ _ _ _) as [[s1 e1] ok] eqn:E. intros [= <- _].
    destruct (kick_group _ _ _ _ _ _ _ _ k E) as [[Hn ->]|(g & Hg & ms & Hms & Hk)]; [constructor|].
    rewrite Hk. case_bool_decide; subst; [|constructor]. rewrite Hg.
    eapply gc_remove; [right; by split|]. done.
  - intros [= <- _]; constructor.
  - intros [= <- _]; constructor.
  - destruct (broadcast _ _ _ _) as [[s1 e1] ok] eqn:E. intros [= <- _].
    rewrite (broadcast_group _ _ _ _ _ _ _ k E). constructor.
  - intros [= <- _]; constructor.
Qed.

(** the events that are not signals: the group stays or goes *)
Lemma step_change s e s' es k :
  sv_step s e = (s', es) →
  (∃ c r, e = EReq c r ∧ group_change s c r k (get_group s k) (get_group s' k)) ∨
  (get_group s' k = get_group s k) ∨ (e = EShutdown k.1 ∧ get_group s' k = None).
Proof.
  destruct e as [c r|c|c|c|t x]; cbn [sv_step]; intros E.
  - left. exists c, r. split; [done|]. by eapply handle_change.
  - right; left. injection E as <- _. unfold get_group. cbn [sv_groups].
    destruct (sv_groups s !! c) as [m|] eqn:Ec; [done|].
    destruct (decide (k.1 = c)) as [<-|Hc]; [by rewrite lookup_insert, Ec|by rewrite lookup_insert_ne].
  - right; left. injection E as <- _. done.
  - right. injection E as <- _. unfold get_group, on_session_shutdown. cbn [sv_groups].
    destruct (decide (k.1 = c)) as [<-|Hc]; [right; by rewrite lookup_delete|left; by rewrite lookup_delete_ne].
  - right; left. case_bool_decide; injection E as <- _; [done|]. apply get_add_mail.
Qed.

(** ** Runs *)

Lemma sv_run_app s es1 es2 :
  sv_run s (es1 ++ es2) =
  let '(s1, x) := sv_run s es1 in let '(s2, y) := sv_run s1 es2 in (s2, x ++ y).
Proof.
  revert s. induction es1 as [|e es1 IH]; intros s; cbn [sv_run app].
  - by destruct (sv_run s es2).
  - destruct (sv_step s e) as [s1 x]. rewrite IH. destruct (sv_run s1 es1) as [s2 y].
    destruct (sv_run s2 es2) as [s3 z]. by rewrite app_assoc.
Qed.

Lemma sv_run_snoc s es e :
  sv_run s (es ++ [e]) = let '(s1, x) := sv_run s es in let '(s2, y) := sv_step s1 e in (s2, x ++ y).
Proof.
  rewrite sv_run_app. destruct (sv_run s es) as [s1 x]. cbn [sv_run]. destruct (sv_step s1 e) as [s2 y].
  by rewrite (right_id_L [] (++)).
Qed.

(** C28: who a member is *)
Lemma members_asked acc mut h s out k g :
  sv_run (sv_init acc mut) h = (s, out) → get_group s k = Some g →
  (∀ p, p ∈ mg_pending g → invited h k p ∨ asked h k p) ∧
  (∀ p, p ∈ mg_members g → p ≠ k.1 →
     (mg_public g = true ∧ asked h k p) ∨ ((invited h k p ∨ asked h k p) ∧ accepted h k p)).
Proof.
  revert s out g. induction h as [|e h IH] using rev_ind; intros s out g.
  - intros [= <- <-]. unfold get_group, sv_init. cbn [sv_groups]. by rewrite lookup_empty.
  - rewrite sv_run_snoc. destruct (sv_run (sv_init acc mut) h) as [s1 x] eqn:E1.
    destruct (sv_step s1 e) as [s2 y] eqn:E2. intros [= <- <-] Hg.
    specialize (IH s1 x).
    assert (Mi : ∀ p, invited h k p → invited (h ++ [e]) k p) by (unfold invited; set_solver).
    assert (Ma : ∀ p, asked h k p → asked (h ++ [e]) k p) by (unfold asked; set_solver).
    assert (Mc : ∀ p, accepted h k p → accepted (h ++ [e]) k p) by (unfold accepted; set_solver).
    assert (Hkeep : ∀ g0, get_group s1 k = Some g0 →
      (∀ p, p ∈ mg_pending g0 → invited (h ++ [e]) k p ∨ asked (h ++ [e]) k p) ∧
      (∀ p, p ∈ mg_members g0 → p ≠ k.1 →
        (mg_public g0 = true ∧ asked (h ++ [e]) k p) ∨
        ((invited (h ++ [e]) k p ∨ asked (h ++ [e]) k p) ∧ accepted (h ++ [e]) k p))).
    { intros g0 Hg0. destruct (IH g0 eq_refl Hg0) as [A B]. split; [naive_solver|].
      intros p Hp Hne. destruct (B p Hp Hne) as [[??]|[[?|?] ?]]; [left|right|right]; naive_solver. }
    destruct (step_change _ _ _ _ k E2) as [(c & r & -> & HC)|[Hs|[_ Hs]]];
      [|rewrite Hs in Hg; by apply Hkeep|congruence].
    assert (Hin : EReq c r ∈ h ++ [EReq c r]) by set_solver.
    rewrite Hg in HC. inversion HC as [o Ho1 Ho2|pub inv Hr Hc Ho1 Ho2|x0 g0 pend Hr Hp Hpe Ho1 Ho2
      |x0 g0 pend ms Hr Hp Hpe Hms Ho1 Ho2| |t g0 ms pend Hr Ht Hms Hpe Ho1 Ho2|t g0 pend Hr Hpe Ho1 Ho2
      |l g0 ms Hr Hms Ho1 Ho2|inv g0 pend Hr Hc Hpe Ho1 Ho2];
      [by apply Hkeep, eq_sym|..]; subst; cbn [mg_pending mg_members mg_public];
      try (destruct (Hkeep g0 (eq_sym Ho1)) as [A B]).
    + split.
      * intros p Hp. left. left. exists pub, inv. split; [done|]. set_solver.
      * intros p Hp. set_solver.
    + split; [|intros p Hq Hne; destruct (B p Hq Hne) as [[Hx _]|Hx]; [congruence|by right]].
      intros p Hq. apply Hpe in Hq as [->|Hq]; [right; by exists x0|by apply A].
    + split.
      * intros p Hq. apply Hpe in Hq as [->|Hq]; [right; by exists x0|by apply A].
      * intros p Hq Hne. apply Hms in Hq as [->|Hq]; [left; split; [done|]; by exists x0|].
        destruct (B p Hq Hne) as [[_ Hx]|Hx]; [by left|by right].
    + split; [intros p Hq; apply A; by apply Hpe|].
      intros p Hq Hne. apply Hms in Hq as [->|Hq]; [right; split; [by apply A|by exists c]|by apply B].
    + split; [intros p Hq; apply A; by apply Hpe|done].
    + split; [done|]. intros p Hq Hne. apply B; [by apply Hms|done].
    + split; [|done]. intros p Hq. apply Hpe in Hq as [Hq|[Hq _]]; [by apply A|].
      left. right. by exists inv.
Qed.

(** ** Deliveries *)

Lemma copies_app p n a b : copies p n (a ++ b) = (copies p n a + copies p n b)%nat.
Proof. induction a as [|e a IH]; [done|]. cbn [copies app]. rewrite IH. lia. Qed.
Lemma copies_mailed p n l :
  copies p n ((λ q, Mailed q n) <$> l) = length (filter (λ q, q = p) l).
Proof.
  induction l as [|q l IH]; [done|]. rewrite fmap_cons. cbn [copies is_copy]. rewrite IH, filter_cons.
  case_bool_decide; case_decide; naive_solver.
Qed.

(** all that a group signal sends is the one note *)
Lemma send_all_effects s l n es a b f :
  send_all s l n = (es, a, b, f) → es = (λ p, Sent p n) <$> a ∧
  a = filter (λ p, p ∈ sv_sessions s) ((filter (λ x, x.2 = true) l).*1) ∧
  b = filter (λ p, p ∉ sv_sessions s) ((filter (λ x, x.2 = true) l).*1) ∧
  f = (filter (λ x, x.2 = false) l).*1.
Proof.
  revert es a b f. induction l as [|[q ok] l IH]; intros es a b f; cbn [send_all].
  - intros [= <- <- <- <-]. done.
  - destruct (send_all s l n) as [[[es' a'] b'] f'] eqn:E. destruct (IH _ _ _ _ eq_refl) as (-> & -> & -> & ->).
    rewrite !filter_cons. cbn [snd]. destruct ok.
    + rewrite decide_True by done. rewrite decide_False by done. rewrite fmap_cons, !filter_cons. cbn [fst].
      unfold direct. case_bool_decide as Hd; intros [= <- <- <- <-].
      * rewrite decide_True by done. rewrite decide_False by naive_solver. done.
      * rewrite decide_False by done. rewrite decide_True by done. done.
    + rewrite decide_False by done. rewrite decide_True by done. intros [= <- <- <- <-]. by rewrite fmap_cons.
Qed.
Lemma all_true_fst l : (filter (λ x : N * bool, x.2 = true) ((λ p, (p, true)) <$> l)).*1 = l.
Proof.
  induction l as [|p l IH]; [done|]. rewrite fmap_cons, filter_cons. cbn [snd]. rewrite decide_True by done.
  rewrite fmap_cons. cbn [fst]. by f_equal.
Qed.
Lemma all_true_failed l : (filter (λ x : N * bool, x.2 = false) ((λ p, (p, true)) <$> l)).*1 = [].
Proof.
  induction l as [|p l IH]; [done|]. rewrite fmap_cons, filter_cons. cbn [snd]. by rewrite decide_False by done.
Qed.
Lemma group_signal_effects s l n s' es a f :
  group_signal s ((λ p, (p, true)) <$> l) n = (s', es, a, f) →
  f = [] ∧
  s' = foldl (λ s p, add_mail s p n) s (filter (λ p, p ∉ sv_sessions s) l) ∧
  es = ((λ p, Sent p n) <$> filter (λ p, p ∈ sv_sessions s) l) ++
       ((λ p, Mailed p n) <$> filter (λ p, p ∈ sv_accounts s) (filter (λ p, p ∉ sv_sessions s) l)).
Proof.
  unfold group_signal. destruct (send_all s _ n) as [[[x y] z] w] eqn:E.
  destruct (send_all_effects _ _ _ _ _ _ _ E) as (-> & -> & -> & ->).
  rewrite all_true_fst, all_true_failed. by intros [= <- <- <- <-].
Qed.

Lemma copies_sent p n l : copies p n ((λ q, Sent q n) <$> l) = length (filter (λ q, q = p) l).
Proof.
  induction l as [|q l IH]; [done|]. rewrite fmap_cons. cbn [copies is_copy]. rewrite IH, filter_cons.
  case_bool_decide; case_decide; naive_solver.
Qed.
Lemma filter_eq_nodup (l : list N) p : NoDup l → length (filter (λ q, q = p) l) = if bool_decide (p ∈ l) then 1%nat else 0%nat.
Proof.
  induction l as [|q l IH]; [done|]. intros [Hq Hnd]%NoDup_cons. specialize (IH Hnd).
  rewrite filter_cons. destruct (decide (q = p)) as [Hd|Hd].
  - subst q. change (S (length (filter (λ q0, q0 = p) l)) = if bool_decide (p ∈ p :: l) then 1%nat else 0%nat).
    rewrite IH, (bool_decide_false (p ∈ l)) by done. by rewrite bool_decide_true by set_solver.
  - rewrite IH. clear IH. apply eq_sym. case_bool_decide; case_bool_decide; set_solver.
Qed.

Lemma group_signal_copies s l n s' es a f p :
  NoDup l → group_signal s ((λ p, (p, true)) <$> l) n = (s', es, a, f) →
  copies p n es = if bool_decide (p ∈ l ∧ (p ∈ sv_sessions s ∨ p ∈ sv_accounts s)) then 1%nat else 0%nat.
Proof.
  intros Hnd E. destruct (group_signal_effects _ _ _ _ _ _ _ E) as (_ & _ & ->).
  rewrite copies_app, copies_sent, copies_mailed, !filter_eq_nodup by (try apply NoDup_filter; try apply NoDup_filter; done).
  repeat case_bool_decide; repeat (rewrite ?elem_of_list_filter in * ); naive_solver.
Qed.

Lemma get_peers_spec s k :
  get_peers s k = match get_group s k with
                  | Some g => if bool_decide (mg_members g = ∅) then None else Some (elements (mg_members g))
                  | None => None end.
Proof.
  unfold get_peers. destruct (get_group s k) as [g|]; [|done]. case_bool_decide as Hd.
  - by rewrite Hd, elements_empty.
  - destruct (elements (mg_members g)) eqn:E; [|done]. destruct Hd. apply elements_empty_inv in E. by apply leibniz_equiv.
Qed.


Lemma get_peers_roster s k l : get_peers s k = Some l → l = elements (roster s k).
Proof.
  rewrite get_peers_spec. unfold roster. destruct (get_group s k) as [g|]; [|done].
  case_bool_decide; [done|]. by intros [= <-].
Qed.
Lemma get_peers_none s k : get_peers s k = None → roster s k = ∅.
Proof.
  rewrite get_peers_spec. unfold roster. destruct (get_group s k) as [g|]; [|done]. by case_bool_decide.
Qed.

Lemma broadcast_copies s c k n s' es b p :
  broadcast s c k n = (s', es, b) →
  copies p n es =
    if bool_decide (member s k p ∧ p ≠ c ∧ (p ∈ sv_sessions s ∨ p ∈ sv_accounts s)) then 1%nat else 0%nat.
Proof.
  unfold broadcast. destruct (get_peers s k) as [l|] eqn:E.
  - apply get_peers_roster in E as ->.
    destruct (group_signal _ _ _) as [[[s1 e1] ok] f] eqn:Eg. intros [= <- <- _].
    rewrite (group_signal_copies _ _ _ _ _ _ _ p (NoDup_filter _ _ (NoDup_elements _)) Eg).
    apply eq_sym. case_bool_decide; case_bool_decide;
      rewrite ?elem_of_list_filter, ?elem_of_elements in *; naive_solver.
  - intros [= <- <- _]. rewrite bool_decide_false; [done|]. rewrite (get_peers_none _ _ E). set_solver.
Qed.
(** everything a broadcast does carries its note *)
Definition carries (n : note) (e : effect) : Prop :=
  match e with Sent _ m | Mailed _ m => m = n | MailOut _ _ => False end.
Lemma group_signal_carries s l n s' es a f :
  group_signal s ((λ p, (p, true)) <$> l) n = (s', es, a, f) → Forall (carries n) es.
Proof.
  intros E. destruct (group_signal_effects _ _ _ _ _ _ _ E) as (_ & _ & ->).
  apply Forall_app. split; apply Forall_fmap, Forall_forall; by intros.
Qed.
Lemma broadcast_carries s c k n s' es b : broadcast s c k n = (s', es, b) → Forall (carries n) es.
Proof.
  unfold broadcast. destruct (get_peers s k) as [l|] eqn:E; [|intros [= <- <- _]; constructor].
  destruct (group_signal _ _ _) as [[[s1 e1] ok] f] eqn:Eg. intros [= <- <- _]. by eapply group_signal_carries.
Qed.
Lemma carries_copies n m p es : m ≠ n → Forall (carries n) es → copies p m es = 0%nat.
Proof.
  intros Hne. induction 1 as [|e es He _ IH]; [done|]. cbn [copies]. rewrite IH.
  destruct e; cbn [is_copy carries] in *; [rewrite bool_decide_false; naive_solver..|done].
Qed.

(** ** What is not a message *)
Definition quiet (e : effect) : Prop :=
  match e with Sent _ n | Mailed _ n => ∀ x k m, n ≠ NMessage x k m | MailOut _ _ => True end.
Lemma quiet_copies p x k m es : Forall quiet es → copies p (NMessage x k m) es = 0%nat.
Proof.
  induction 1 as [|e es He _ IH]; [done|]. cbn [copies]. rewrite IH.
  destruct e; cbn [is_copy quiet] in *; [rewrite bool_decide_false; naive_solver..|done].
Qed.
Lemma carries_quiet n es : (∀ x k m, n ≠ NMessage x k m) → Forall (carries n) es → Forall quiet es.
Proof. intros Hn Hf. eapply Forall_impl; [exact Hf|]. intros [] ?; cbn [quiet carries] in *; naive_solver. Qed.

Lemma send_all_carries s l n es a b f : send_all s l n = (es, a, b, f) → Forall (carries n) es.
Proof.
  intros E. destruct (send_all_effects _ _ _ _ _ _ _ E) as (-> & _).
  apply Forall_fmap, Forall_forall. by intros.
Qed.
Lemma group_signal_carries_any s l n s' es a f : group_signal s l n = (s', es, a, f) → Forall (carries n) es.
Proof.
  unfold group_signal. destruct (send_all s l n) as [[[x y] z] w] eqn:E. intros [= <- <- _ _].
  apply Forall_app. split; [by eapply send_all_carries|]. apply Forall_fmap, Forall_forall. by intros.
Qed.
Lemma kick_quiet s b c k l s' es ok : kick_from_group s b c k l = (s', es, ok) → Forall quiet es.
Proof.
  unfold kick_from_group. destruct (remove_peers s k l) as [[[s1 r] m]|] eqn:E; [|intros [= <- <- _]; constructor].
  destruct (group_signal s1 _ _) as [[[s2 e1] a1] f1] eqn:E1.
  destruct (group_signal s2 _ _) as [[[s3 e2] a2] f2] eqn:E2.
  intros [= <- <- _]. apply Forall_app. split.
  - eapply carries_quiet; [|by eapply group_signal_carries_any]. done.
  - eapply carries_quiet; [|by eapply group_signal_carries_any]. done.
Qed.
Lemma direct_carries s p n e : direct s p n = Some e → e = [Sent p n] ∧ p ∈ sv_sessions s.
Proof. unfold direct. case_bool_decide; [|done]. by intros [= <-]. Qed.
Lemma direct_list_quiet s (f : N → note) l : (∀ p x k m, f p ≠ NMessage x k m) →
  Forall quiet (mjoin ((λ p, default [] (direct s p (f p))) <$> l)).
Proof.
  intros Hf. induction l as [|p l IH]; [constructor|]. rewrite fmap_cons. cbn [mjoin list_join].
  apply Forall_app. split; [|done]. unfold direct. case_bool_decide; cbn; [|constructor].
  constructor; [|constructor]. cbn. apply Hf.
Qed.

Ltac quiet_tail := apply Forall_app; split; [|constructor; [done|constructor]].

Lemma handle_quiet s c r s' es :
  handle s c r = (s', es) → (∀ x k m, r ≠ RMessage x k m) → Forall quiet es.
Proof.
  destruct r as [id pub inv|x k0|o|k0|x k0 m|t k0|t k0|k0|k0 inv|k0 ps|k0 j pl|k0 j pl|k0 e pl|k0 t pl];
    cbn [handle]; intros E Hr.
  - destruct (create_new_message_group _ _ _ _ _) as [s1 [k|]]; injection E as <- <-.
    + quiet_tail. by apply (direct_list_quiet s (λ _, NInvitation c k)).
    + by repeat constructor.
  - destruct (get_group s k0); [|injection E as <- <-; by repeat constructor].
    destruct (request_join _ _ _) as [s1 [[]|]]; [injection E as <- <-; by repeat constructor| |injection E as <- <-; by repeat constructor].
    destruct (direct s1 _ _) as [e|] eqn:Ed; injection E as <- <-; [|by repeat constructor].
    quiet_tail. apply direct_carries in Ed as [-> _]. by repeat constructor.
  - injection E as <- <-. by repeat constructor.
  - destruct (negb _); [injection E as <- <-; constructor|].
    destruct (pl_remove_group s k0) as [s1 [g|]]; injection E as <- <-; [|by repeat constructor].
    quiet_tail. by apply (direct_list_quiet s (λ _, NDisconnected k0)).
  - by destruct (Hr x k0 m).
  - destruct (upgrade_peer s k0 t) as [s1 []]; [|injection E as <- <-; by repeat constructor].
    destruct (broadcast _ _ _ _) as [[s2 e2] ok] eqn:Eb. injection E as <- <-. quiet_tail.
    eapply carries_quiet; [|by eapply broadcast_carries]. done.
  - destruct (remove_pending s k0 t) as [s1 ok].
    destruct (direct s1 _ _) as [e|] eqn:Ed; injection E as <- <-; [|by repeat constructor].
    quiet_tail. apply direct_carries in Ed as [-> _]. by repeat constructor.
  - destruct (kick_from_group _ _ _ _ _) as [[s1 e1] ok] eqn:Ek. injection E as <- <-. quiet_tail.
    by eapply kick_quiet.
  - destruct (negb _); [injection E as <- <-; constructor|].
    destruct (get_group s k0); [|injection E as <- <-; by repeat constructor].
    destruct (group_signal _ _ _) as [[[s1 e1] ok] f] eqn:Eg. injection E as <- <-. quiet_tail.
    eapply carries_quiet; [|by eapply group_signal_carries_any]. done.
  - destruct (negb _); [injection E as <- <-; constructor|].
    destruct (kick_from_group _ _ _ _ _) as [[s1 e1] ok] eqn:Ek. injection E as <- <-. quiet_tail.
    by eapply kick_quiet.
  - injection E as <- <-. destruct (direct s _ _) eqn:Ed; [|constructor].
    apply direct_carries in Ed as [-> _]. by repeat constructor.
  - injection E as <- <-. destruct (direct s _ _) eqn:Ed; [|constructor].
    apply direct_carries in Ed as [-> _]. by repeat constructor.
  - destruct (broadcast _ _ _ _) as [[s2 e2] ok] eqn:Eb. injection E as <- <-.
    eapply carries_quiet; [|by eapply broadcast_carries]. done.
  - injection E as <- <-. destruct (direct s _ _) eqn:Ed; [|constructor].
    apply direct_carries in Ed as [-> _]. by repeat constructor.
Qed.

(** C29: the copies of a message that one event makes *)
Lemma step_messages s e s' es p x k m :
  sv_step s e = (s', es) →
  copies p (NMessage x k m) es =
    match e with
    | EReq c (RMessage x' k' m') =>
        if bool_decide ((x', k', m') = (x, k, m) ∧ member s k p ∧ p ≠ c ∧ (p ∈ sv_sessions s ∨ p ∈ sv_accounts s))
        then 1%nat else 0%nat
    | _ => 0%nat
    end.
Proof.
  destruct e as [c r|c|c|c|t y]; cbn [sv_step]; intros E.
  - assert (Hr : (∃ x k m, r = RMessage x k m) ∨ (∀ x k m, r ≠ RMessage x k m)) by (destruct r; naive_solver).
    destruct Hr as [(x0 & k0 & m0 & ->)|Hr].
    + cbn [handle] in E. destruct (broadcast _ _ _ _) as [[s1 e1] ok] eqn:Eb. injection E as <- <-.
      rewrite copies_app. cbn [copies is_copy].
      rewrite (bool_decide_false (_ ∧ NResponse _ _ = _)) by naive_solver.
      destruct (decide ((x0, k0, m0) = (x, k, m))) as [[= -> -> ->]|Hne].
      * rewrite (broadcast_copies _ _ _ _ _ _ _ p Eb). repeat case_bool_decide; naive_solver.
      * rewrite (carries_copies (NMessage x0 k0 m0)); [|congruence|by eapply broadcast_carries].
        rewrite bool_decide_false; naive_solver.
    + rewrite (quiet_copies _ _ _ _ _ (handle_quiet _ _ _ _ _ E Hr)). destruct r; naive_solver.
  - unfold connect in E. destruct (default [] _); injection E as <- <-; done.
  - by injection E as <- <-.
  - by injection E as <- <-.
  - case_bool_decide; [injection E as <- <-|].
    + cbn [copies is_copy]. rewrite bool_decide_false; naive_solver.
    + case_bool_decide; injection E as <- <-; [|done]. cbn [copies is_copy]. rewrite bool_decide_false; naive_solver.
Qed.

(** C29: whoever is not in a group stays out unless something lets it in *)
Lemma stays_out s e s' es k p :
  sv_step s e = (s', es) → ¬ admits k p e → ¬ member s k p → ¬ member s' k p.
Proof.
  intros E Ha Hm. unfold roster in *. destruct (step_change _ _ _ _ k E) as [(c & r & -> & HC)|[-> |[_ ->]]]; [|done|set_solver].
  generalize dependent (get_group s k). generalize (get_group s' k). intros o2 o1 Hm HC.
  destruct HC as [o|pub inv Hr Hc|x0 g0 pend Hr Hp Hpe
      |x0 g0 pend ms Hr Hp Hpe Hms|g0 Hr Hc|t g0 ms pend Hr Ht Hms Hpe|t g0 pend Hr Hpe
      |l g0 ms Hr Hms|inv g0 pend Hr Hc Hpe]; cbn [mg_members] in *; try done.
  - subst. cbn [admits] in Ha. rewrite elem_of_singleton. intros ->. apply Ha. split; [done|]. by destruct k.
  - rewrite Hms. intros [->|?]; [|done]. subst. cbn [admits] in Ha. naive_solver.
  - rewrite Hms. intros [->|?]; [|done]. subst. cbn [admits] in Ha. naive_solver.
  - rewrite Hms. naive_solver.
Qed.

Lemma run_out s es s' out k p x m :
  sv_run s es = (s', out) → ¬ member s k p → Forall (λ e, ¬ admits k p e) es →
  ¬ member s' k p ∧ copies p (NMessage x k m) out = 0%nat.
Proof.
  revert s s' out. induction es as [|e es IH]; intros s s' out; cbn [sv_run].
  - by intros [= <- <-].
  - destruct (sv_step s e) as [s1 x1] eqn:E1. destruct (sv_run s1 es) as [s2 x2] eqn:E2.
    intros [= <- <-] Hm [Ha Hf]%Forall_cons.
    pose proof (stays_out _ _ _ _ _ _ E1 Ha Hm) as Hm1. destruct (IH _ _ _ E2 Hm1 Hf) as [Hm2 Hc].
    split; [done|]. rewrite copies_app, Hc, (step_messages _ _ _ _ p x k m E1).
    destruct e as [c []| | | |]; try done. rewrite bool_decide_false; naive_solver.
Qed.

(** kicked or left: out *)
Lemma removed_out s e s' es k p :
  sv_step s e = (s', es) →
  (e = EReq p (RLeave k) ∨ (∃ l, e = EReq k.1 (RKick k l) ∧ p ∈ l)) ∨ e = EReq k.1 (REnd k) ∨ e = EShutdown k.1 →
  ¬ member s' k p.
Proof.
  intros E Hr. unfold roster.
  assert (Hkick : ∀ b c l ok es, kick_from_group s b c k l = (s', es, ok) → p ∈ l →
    p ∉ (match get_group s' k with Some g => mg_members g | None => ∅ end)).
  { intros b c l ok es0 Ek Hl. destruct (kick_group _ _ _ _ _ _ _ _ k Ek) as [[Hn ->]|(g & Hg & ms & Hms & Hk)].
    - rewrite Hn. set_solver.
    - rewrite Hk, bool_decide_true by done. cbn [mg_members]. rewrite Hms. naive_solver. }
  destruct Hr as [[-> |(l & -> & Hl)]|[-> | ->]]; cbn [sv_step handle] in E.
  - destruct (kick_from_group _ _ _ _ _) as [[s1 e1] ok] eqn:Ek. injection E as -> _.
    eapply Hkick; [done|set_solver].
  - unfold permission_gate in E. rewrite N.eqb_refl in E. cbn [negb] in E.
    destruct (kick_from_group _ _ _ _ _) as [[s1 e1] ok] eqn:Ek. injection E as -> _.
    by eapply Hkick.
  - unfold permission_gate in E. rewrite N.eqb_refl in E. cbn [negb] in E.
    unfold pl_remove_group in E. destruct (sv_groups s !! k.1) as [m|] eqn:Em.
    + assert (s' = with_groups s (<[k.1:=delete k.2 m]> (sv_groups s))) as -> by (destruct (m !! k.2); by injection E).
      unfold get_group, with_groups. cbn [sv_groups]. rewrite lookup_insert, lookup_delete. set_solver.
    + injection E as <- _. unfold get_group. rewrite Em. set_solver.
  - injection E as <- _. unfold get_group, on_session_shutdown. cbn [sv_groups]. rewrite lookup_delete. set_solver.
Qed.

(** C30 *)
Lemma non_owner_keeps s c r s' es k g :
  sv_step s (EReq c r) = (s', es) → c ≠ k.1 → get_group s k = Some g →
  ∃ g', get_group s' k = Some g' ∧ mg_public g' = mg_public g ∧
    (∀ p, p ≠ c ∨ r ≠ RLeave k → p ∈ mg_members g → p ∈ mg_members g').
Proof.
  intros E Hc Hg. cbn [sv_step] in E. pose proof (handle_change _ _ _ _ _ k E) as HC. rewrite Hg in HC.
  inversion HC as [o Ho1 Ho2|pub inv Hr Hc' Ho1 Ho2|x0 g0 pend Hr Hp Hpe Ho1 Ho2
      |x0 g0 pend ms Hr Hp Hpe Hms Ho1 Ho2|g0 Hr Hc' Ho1 Ho2|t g0 ms pend Hr Ht Hms Hpe Ho1 Ho2|t g0 pend Hr Hpe Ho1 Ho2
      |l g0 ms Hr Hms Ho1 Ho2|inv g0 pend Hr Hc' Hpe Ho1 Ho2]; subst; try done.
  - by exists g.
  - eexists. split; [done|]. by split.
  - eexists. split; [done|]. split; [done|]. cbn [mg_members]. naive_solver.
  - eexists. split; [done|]. split; [done|]. cbn [mg_members]. naive_solver.
  - eexists. split; [done|]. by split.
  - destruct Hr as [[-> ->]|[_ ?]]; [|done]. eexists. split; [done|]. split; [done|]. cbn [mg_members].
    intros p [Hp|Hp] Hm; [|done]. apply Hms. set_solver.
Qed.

(** ** Mail *)
Lemma mailed_app p a b : mailed p (a ++ b) = mailed p a ++ mailed p b.
Proof.
  induction a as [|e a IH]; [done|]. destruct e; cbn [mailed app]; rewrite ?IH; [done| |done]. by case_bool_decide.
Qed.
Lemma handed_app p a b : handed p (a ++ b) = handed p a ++ handed p b.
Proof.
  induction a as [|e a IH]; [done|]. destruct e; cbn [handed app]; rewrite ?IH; [done|done|].
  case_bool_decide; [|done]. by rewrite app_assoc.
Qed.
Definition only_sent (e : effect) : Prop := match e with Sent _ _ => True | _ => False end.
Lemma only_sent_mail p es : Forall only_sent es → mailed p es = [] ∧ handed p es = [].
Proof. induction 1 as [|e es He _ IH]; [done|]. by destruct e. Qed.

Lemma box_set_group s k g p : box (set_group s k g) p = box s p.
Proof. unfold box. by destruct (set_group_other s k g) as (_ & _ & -> & _). Qed.
Lemma box_add_pending s k l p : box (add_pending s k l) p = box s p.
Proof. unfold add_pending. destruct (get_group s k); [apply box_set_group|done]. Qed.
Lemma box_add_mail s q n p :
  box (add_mail s q n) p = box s p ++ (if bool_decide (q ∈ sv_accounts s ∧ q = p) then [n] else []).
Proof.
  unfold add_mail, box. case_bool_decide as Hq.
  - unfold with_mail. cbn [sv_mail]. destruct (decide (q = p)) as [->|Hne].
    + rewrite lookup_insert, bool_decide_true by done. done.
    + rewrite lookup_insert_ne by done. rewrite bool_decide_false by naive_solver. by rewrite app_nil_r.
  - rewrite bool_decide_false by naive_solver. by rewrite app_nil_r.
Qed.
Lemma add_mail_accounts s q n : sv_accounts (add_mail s q n) = sv_accounts s.
Proof. unfold add_mail. by case_bool_decide. Qed.
Lemma box_add_mails s l n p :
  box (foldl (λ s p, add_mail s p n) s l) p =
  box s p ++ mailed p ((λ q, Mailed q n) <$> filter (λ q, q ∈ sv_accounts s) l).
Proof.
  revert s. induction l as [|q l IH]; intros s; cbn [foldl]; [by rewrite app_nil_r|].
  rewrite IH, box_add_mail, add_mail_accounts, filter_cons, <- app_assoc. f_equal.
  destruct (decide (q ∈ sv_accounts s)) as [Hq|Hq].
  - rewrite fmap_cons. cbn [mailed]. destruct (decide (q = p)) as [->|Hne].
    + by rewrite !bool_decide_true by done.
    + by rewrite !bool_decide_false by naive_solver.
  - by rewrite bool_decide_false by naive_solver.
Qed.
Lemma mailed_no_handed p n l : handed p ((λ q, Mailed q n) <$> l) = [].
Proof. by induction l. Qed.
Lemma sent_only l n : Forall only_sent ((λ p, Sent p n) <$> l).
Proof. apply Forall_fmap, Forall_forall. by intros. Qed.

Lemma group_signal_mail s l n s' es a f p :
  group_signal s l n = (s', es, a, f) → box s' p = box s p ++ mailed p es ∧ handed p es = [].
Proof.
  unfold group_signal. destruct (send_all s l n) as [[[x y] z] w] eqn:E.
  destruct (send_all_effects _ _ _ _ _ _ _ E) as (-> & _). intros [= <- <- _ _].
  rewrite mailed_app, handed_app. destruct (only_sent_mail p _ (sent_only y n)) as [-> ->].
  rewrite box_add_mails, mailed_no_handed. done.
Qed.
Lemma broadcast_mail s c k n s' es b p :
  broadcast s c k n = (s', es, b) → box s' p = box s p ++ mailed p es ∧ handed p es = [].
Proof.
  unfold broadcast. destruct (get_peers s k) as [l|] eqn:E.
  - destruct (group_signal _ _ _) as [[[s1 e1] ok] f] eqn:Eg. intros [= <- <- _]. by eapply group_signal_mail.
  - intros [= <- <- _]. by rewrite app_nil_r.
Qed.
Lemma kick_mail s b c k l s' es ok p :
  kick_from_group s b c k l = (s', es, ok) → box s' p = box s p ++ mailed p es ∧ handed p es = [].
Proof.
  unfold kick_from_group. destruct (remove_peers s k l) as [[[s1 r] m]|] eqn:E; [|intros [= <- <- _]; by rewrite app_nil_r].
  assert (Hb : box s1 p = box s p).
  { unfold remove_peers in E. destruct (get_group s k); [|done]. destruct (remove_each _ _).
    injection E as <- _ _. apply box_set_group. }
  destruct (group_signal s1 _ _) as [[[s2 e1] a1] f1] eqn:E1.
  destruct (group_signal s2 _ _) as [[[s3 e2] a2] f2] eqn:E2.
  intros [= <- <- _]. destruct (group_signal_mail _ _ _ _ _ _ _ p E1) as [H1 H2].
  destruct (group_signal_mail _ _ _ _ _ _ _ p E2) as [H3 H4].
  by rewrite H3, H1, Hb, mailed_app, handed_app, H2, H4, app_assoc.
Qed.
Lemma direct_list_sent s (f : N → note) l : Forall only_sent (mjoin ((λ p, default [] (direct s p (f p))) <$> l)).
Proof.
  induction l as [|p l IH]; [constructor|]. rewrite fmap_cons. cbn [mjoin list_join].
  apply Forall_app. split; [|done]. unfold direct. case_bool_decide; cbn; by repeat constructor.
Qed.

Lemma handle_mail s c r s' es p :
  handle s c r = (s', es) → box s' p = box s p ++ mailed p es ∧ handed p es = [].
Proof.
  assert (Hsent : ∀ es, box s' p = box s p → Forall only_sent es → box s' p = box s p ++ mailed p es ∧ handed p es = []).
  { intros es0 Hb Hf. destruct (only_sent_mail p _ Hf) as [-> ->]. by rewrite app_nil_r. }
  assert (Htail : ∀ s1 es0 t n, box s1 p = box s p → box s' p = box s1 p ++ mailed p es0 ∧ handed p es0 = [] →
    box s' p = box s p ++ mailed p (es0 ++ [Sent t n]) ∧ handed p (es0 ++ [Sent t n]) = []).
  { intros s1 es0 t n Hb [H1 H2]. rewrite mailed_app, handed_app, H1, H2, Hb. cbn [mailed handed]. by rewrite app_nil_r. }
  destruct r as [id pub inv|x k0|o|k0|x k0 m|t k0|t k0|k0|k0 inv|k0 ps|k0 j pl|k0 j pl|k0 e pl|k0 t pl];
    cbn [handle]; intros E.
  - destruct (create_new_message_group _ _ _ _ _) as [s1 o] eqn:Ec.
    assert (Hb : box s1 p = box s p).
    { unfold create_new_message_group in Ec. destruct (sv_groups s !! c); [|by injection Ec as <- _].
      case_bool_decide; [|by injection Ec as <- _]. destruct (_ !! id); by injection Ec as <- _. }
    destruct o as [k|]; injection E as <- <-; apply Hsent; [done| |done|by repeat constructor].
    apply Forall_app. split; [by apply (direct_list_sent s (λ _, NInvitation c k))|by repeat constructor].
  - destruct (get_group s k0); [|injection E as <- <-; apply Hsent; [done|by repeat constructor]].
    destruct (request_join _ _ _) as [s1 o] eqn:Ej.
    assert (Hb : box s1 p = box s p).
    { rewrite <- (box_add_pending s k0 [c] p). unfold request_join in Ej.
      destruct (get_group _ k0) as [g|]; [|by injection Ej as <- _].
      destruct (mg_public g); injection Ej as <- _; [apply box_set_group|done]. }
    destruct o as [[]|]; [injection E as <- <-; apply Hsent; [done|by repeat constructor]| |
      injection E as <- <-; apply Hsent; [done|by repeat constructor]].
    destruct (direct s1 _ _) as [e|] eqn:Ed; injection E as <- <-; apply Hsent; [done| |done|by repeat constructor].
    apply direct_carries in Ed as [-> _]. by repeat constructor.
  - injection E as <- <-; apply Hsent; [done|by repeat constructor].
  - destruct (negb _); [injection E as <- <-; apply Hsent; [done|by repeat constructor]|].
    destruct (pl_remove_group s k0) as [s1 o] eqn:Er.
    assert (Hb : box s1 p = box s p) by (unfold pl_remove_group in Er; destruct (sv_groups s !! k0.1); by injection Er as <- _).
    destruct o as [g|]; injection E as <- <-; apply Hsent; [done| |done|by repeat constructor].
    apply Forall_app. split; [by apply (direct_list_sent s (λ _, NDisconnected k0))|by repeat constructor].
  - destruct (broadcast _ _ _ _) as [[s2 e2] ok] eqn:Eb. injection E as <- <-.
    apply (Htail s); [done|]. by eapply broadcast_mail.
  - destruct (upgrade_peer s k0 t) as [s1 o] eqn:Eu.
    assert (Hb : box s1 p = box s p).
    { unfold upgrade_peer in Eu. destruct (get_group s k0); [|by injection Eu as <- _].
      case_bool_decide; injection Eu as <- _; [apply box_set_group|done]. }
    destruct o; [|injection E as <- <-; apply Hsent; [done|by repeat constructor]].
    destruct (broadcast _ _ _ _) as [[s2 e2] ok] eqn:Eb. injection E as <- <-.
    apply (Htail s1); [done|]. by eapply broadcast_mail.
  - destruct (remove_pending s k0 t) as [s1 o] eqn:Eu.
    assert (Hb : box s1 p = box s p).
    { unfold remove_pending in Eu. destruct (get_group s k0); [|by injection Eu as <- _].
      case_bool_decide; injection Eu as <- _; [apply box_set_group|done]. }
    destruct (direct s1 _ _) as [e|] eqn:Ed; injection E as <- <-; apply Hsent; [done| |done|by repeat constructor].
    apply direct_carries in Ed as [-> _]. by repeat constructor.
  - destruct (kick_from_group _ _ _ _ _) as [[s1 e1] ok] eqn:Ek. injection E as <- <-.
    apply (Htail s); [done|]. by eapply kick_mail.
  - destruct (negb _); [injection E as <- <-; apply Hsent; [done|by repeat constructor]|].
    destruct (get_group s k0); [|injection E as <- <-; apply Hsent; [done|by repeat constructor]].
    destruct (group_signal _ _ _) as [[[s1 e1] ok] f] eqn:Eg. injection E as <- <-.
    apply (Htail s); [done|]. rewrite box_add_pending. by eapply group_signal_mail.
  - destruct (negb _); [injection E as <- <-; apply Hsent; [done|by repeat constructor]|].
    destruct (kick_from_group _ _ _ _ _) as [[s1 e1] ok] eqn:Ek. injection E as <- <-.
    apply (Htail s); [done|]. by eapply kick_mail.
  - injection E as <- <-. apply Hsent; [done|]. unfold direct. case_bool_decide; cbn; by repeat constructor.
  - injection E as <- <-. apply Hsent; [done|]. unfold direct. case_bool_decide; cbn; by repeat constructor.
  - destruct (broadcast _ _ _ _) as [[s2 e2] ok] eqn:Eb. injection E as <- <-. by eapply broadcast_mail.
  - injection E as <- <-. apply Hsent; [done|]. unfold direct. case_bool_decide; cbn; by repeat constructor.
Qed.

Lemma step_mail s e s' es p :
  sv_step s e = (s', es) →
  (e = EShutdown p ∧ box s' p = [] ∧ mailed p es = [] ∧ handed p es = []) ∨
  (e ≠ EShutdown p ∧ handed p es ++ box s' p = box s p ++ mailed p es).
Proof.
  destruct e as [c r|c|c|c|t y]; cbn [sv_step]; intros E.
  - right. split; [done|]. destruct (handle_mail _ _ _ _ _ p E) as [-> ->]. done.
  - right. split; [done|]. unfold connect in E. injection E as <- <-. unfold box at 1. cbn [sv_mail].
    destruct (decide (c = p)) as [->|Hne].
    + rewrite lookup_delete. cbn [default from_option]. unfold box. change (default [] None) with (@nil note).
      rewrite app_nil_r. destruct (default [] (sv_mail s !! p)); [done|].
      cbn [handed mailed]. by rewrite bool_decide_true, !app_nil_r by done.
    + rewrite lookup_delete_ne by done. unfold box.
      destruct (default [] (sv_mail s !! c)); cbn [handed mailed]; rewrite ?bool_decide_false by done; by rewrite app_nil_r.
  - right. split; [done|]. injection E as <- <-. cbn. by rewrite app_nil_r.
  - injection E as <- <-. destruct (decide (c = p)) as [->|Hne]; [left|right].
    + split_and!; try done. unfold box, on_session_shutdown. cbn [sv_mail]. by rewrite lookup_delete.
    + split; [congruence|]. cbn [handed mailed app]. rewrite app_nil_r. unfold box, on_session_shutdown. cbn [sv_mail].
      by rewrite lookup_delete_ne.
  - right. split; [done|]. case_bool_decide; [injection E as <- <-; cbn; by rewrite app_nil_r|].
    assert (s' = add_mail s t (NOther y)) as -> by by injection E.
    rewrite box_add_mail. case_bool_decide as Ht; injection E as <-; cbn [handed mailed app].
    + destruct (decide (t = p)) as [->|Hne].
      * by rewrite !bool_decide_true.
      * by rewrite !bool_decide_false by naive_solver.
    + by rewrite bool_decide_false by naive_solver.
Qed.

(** C39: mail comes out in the order it was put in, nothing twice *)
Lemma run_mail s es s' out p :
  sv_run s es = (s', out) →
  handed p out ++ box s' p `sublist_of` box s p ++ mailed p out.
Proof.
  revert s s' out. induction es as [|e es IH]; intros s s' out; cbn [sv_run].
  - intros [= <- <-]. cbn. by rewrite app_nil_r.
  - destruct (sv_step s e) as [s1 x1] eqn:E1. destruct (sv_run s1 es) as [s2 x2] eqn:E2.
    intros [= <- <-]. specialize (IH _ _ _ E2). rewrite handed_app, mailed_app.
    destruct (step_mail _ _ _ _ p E1) as [(_ & Hb & Hm & Hh)|[_ Hs]].
    + rewrite Hh, Hm. cbn [app]. rewrite Hb in IH. by apply sublist_inserts_l.
    + rewrite app_assoc, <- Hs, <- !app_assoc. by apply sublist_app.
Qed.
Lemma run_mail_exact s es s' out p :
  sv_run s es = (s', out) → EShutdown p ∉ es →
  handed p out ++ box s' p = box s p ++ mailed p out.
Proof.
  revert s s' out. induction es as [|e es IH]; intros s s' out; cbn [sv_run].
  - intros [= <- <-]. cbn. by rewrite app_nil_r.
  - destruct (sv_step s e) as [s1 x1] eqn:E1. destruct (sv_run s1 es) as [s2 x2] eqn:E2.
    intros [= <- <-] Hn. rewrite not_elem_of_cons in Hn. destruct Hn as [Hne Hn].
    specialize (IH _ _ _ E2 Hn). rewrite handed_app, mailed_app.
    destruct (step_mail _ _ _ _ p E1) as [(-> & _)|[_ Hs]]; [done|].
    by rewrite app_assoc, <- Hs, <- !app_assoc, IH.
Qed.

(** ** Open invitations *)

Lemma awaits_step s e s' es k p :
  sv_step s e = (s', es) → ¬ settles k p e → awaits s k p → awaits s' k p.
Proof.
  intros E Hn (g & Hg & Hp).
  destruct (step_change _ _ _ _ k E) as [(c & r & -> & HC)|[Hs|[-> _]]];
    [|exists g; by rewrite Hs|by destruct Hn].
  rewrite Hg in HC. unfold awaits. inversion HC as [o Ho1 Ho2| |x0 g0 pend Hr Hpu Hpe Ho1 Ho2
      |x0 g0 pend ms Hr Hpu Hpe Hms Ho1 Ho2|g0 Hr Hc Ho1 Ho2|t g0 ms pend Hr Ht Hms Hpe Ho1 Ho2|t g0 pend Hr Hpe Ho1 Ho2
      |l g0 ms Hr Hms Ho1 Ho2|inv g0 pend Hr Hc Hpe Ho1 Ho2]; subst.
  - by exists g.
  - eexists. split; [reflexivity|]. cbn. apply Hpe. by right.
  - eexists. split; [reflexivity|]. cbn. apply Hpe. by right.
  - by destruct Hn.
  - eexists. split; [reflexivity|]. cbn. apply Hpe. split; [done|]. intros ->. by destruct Hn.
  - eexists. split; [reflexivity|]. cbn. apply Hpe. split; [done|]. intros ->. by destruct Hn.
  - by eexists.
  - eexists. split; [reflexivity|]. cbn. apply Hpe. by left.
Qed.
Lemma awaits_run h s k p :
  (∀ e, e ∈ h → ¬ settles k p e) → awaits s k p → awaits (sv_run s h).1 k p.
Proof.
  revert s. induction h as [|e h IH]; intros s Hn Ha; [done|]. cbn [sv_run].
  destruct (sv_step s e) as [s1 x] eqn:E. specialize (IH s1). destruct (sv_run s1 h) as [s2 y]. cbn [fst] in *.
  apply IH; [intros e' He; apply Hn; by right|]. eapply awaits_step; [exact E|apply Hn; by left|done].
Qed.
Lemma awaits_accept s k p c : awaits s k p → member (sv_step s (EReq c (RAccept p k))).1 k p.
Proof.
  intros (g & Hg & Hp). cbn [sv_step handle]. unfold upgrade_peer. rewrite Hg, bool_decide_true by done.
  destruct (broadcast _ _ _ _) as [[s1 e1] ok] eqn:Eb. cbn [fst]. unfold roster.
  rewrite (broadcast_group _ _ _ _ _ _ _ k Eb), get_set_group by by rewrite Hg. rewrite bool_decide_true by done.
  cbn. set_solver.
Qed.
Lemma awaits_add s k g inv p :
  get_group s k = Some g → p ∈ inv → sv_mutual s k.1 p = true → awaits (sv_step s (EReq k.1 (RAdd k inv))).1 k p.
Proof.
  intros Hg Hp Hm. destruct (sv_step s (EReq k.1 (RAdd k inv))) as [s' es] eqn:E. cbn [fst].
  cbn [sv_step handle] in E. unfold permission_gate in E. rewrite N.eqb_refl in E. cbn [negb] in E. rewrite Hg in E.
  destruct (group_signal _ _ _) as [[[s1 e1] ok] f] eqn:Eg. injection E as <- _.
  unfold awaits. rewrite get_add_pending, bool_decide_true by done. rewrite (group_signal_group _ _ _ _ _ _ _ _ Eg), Hg.
  eexists. split; [reflexivity|]. cbn. rewrite elem_of_union, elem_of_list_to_set. right.
  apply (group_signal_told _ _ _ _ _ _ _ p Eg), elem_of_list_fmap. exists p. by rewrite Hm.
Qed.
Lemma awaits_create s s' es id c pub inv p :
  sv_step s (EReq c (RCreate id pub inv)) = (s', es) → Sent c (NCreated (Some (c, id))) ∈ es → p ∈ inv → awaits s' (c, id) p.
Proof.
  cbn [sv_step handle]. unfold create_new_message_group.
  destruct (sv_groups s !! c) as [m|] eqn:E; [|intros [= <- <-] H; set_solver].
  case_bool_decide; [|intros [= <- <-] H'; set_solver].
  destruct (m !! id) eqn:Ei; intros [= <- <-] H' Hp; [set_solver|].
  unfold awaits, get_group, with_groups. cbn [sv_groups fst snd]. rewrite !lookup_insert.
  eexists. split; [reflexivity|]. cbn. set_solver.
Qed.
