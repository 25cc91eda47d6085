(** Properties of file transfers (C86–C90). *)
From Coq Require Import ZifyBool ZifyNat ZifyN.
From stdpp Require Import prelude gmap.
From Verif Require Import Transfer_Model Transfer_Spec Transfer_Proofs.
Local Open Scope N_scope.

(** ** Tools: transfers made of non-empty pieces *)
Definition pieced (start : N) (slice : bytes → group) (ps : list bytes) (order : nat → list nat) (dec : bytes → option bytes) : cfg :=
  mk_cfg start (slice <$> ps) order dec.

Lemma pieced_wf start slice ps order dec :
  slices slice → (∀ p, p ∈ ps → p ≠ []) → sends_all order (slice <$> ps) → wf (pieced start slice ps order dec).
Proof.
  intros Hs Hne Ho rel ws E. cbn [t_groups pieced] in E. pose proof (Ho _ _ E) as Hp.
  rewrite list_lookup_fmap in E. destruct (ps !! rel) as [p|] eqn:E'; [|done]. injection E as <-.
  destruct (Hs p) as (H1 & H2 & _); [apply Hne; by eapply elem_of_list_lookup_2|]. done.
Qed.
Lemma pieced_dec start slice ps qs order dec :
  slices slice → (∀ p, p ∈ ps → p ≠ []) → Forall2 (λ p q, dec p = Some q) ps qs →
  Forall2 (λ ws q, t_dec (pieced start slice ps order dec) (group_bytes ws) = Some q) (t_groups (pieced start slice ps order dec)) qs.
Proof.
  intros Hs Hne H. cbn [t_groups t_dec pieced]. apply Forall2_fmap_l. apply Forall2_same_length_lookup_2.
  - by eapply Forall2_length.
  - intros i p q Ep Eq. cbn. unfold group_bytes. destruct (Hs p) as (_ & _ & ->); [apply Hne; by eapply elem_of_list_lookup_2|].
    eapply (Forall2_lookup_lr _ _ _ _ _ _ H Ep Eq).
Qed.
Lemma all_some (ps : list bytes) : Forall2 (λ p q : bytes, Some p = Some q) ps ps.
Proof. by apply Forall_Forall2_diag, Forall_true. Qed.
Lemma pieced_total start slice ps order dec : total (pieced start slice ps order dec) = length ps.
Proof. unfold total. cbn. apply fmap_length. Qed.
Lemma witness c es (P : st → bool) : P <$> run c init es = Some true → ∃ x, reached c x ∧ P x = true.
Proof. destruct (run c init es) as [x|] eqn:E; [|done]. cbn. intros [= H]. exists x. split; [by exists es|done]. Qed.
Definition quietb (c : cfg) (x : st) : bool :=
  forallb (λ e, match step c x e with None => true | Some _ => false end) [EvLoop; EvToR; EvToS; EvWritten].
Lemma quietb_ok c x : quietb c x = true → quiet c x.
Proof.
  intros H e He. unfold quietb in H. rewrite forallb_forall in H. specialize (H e (proj1 (elem_of_list_In _ _) He)). by destruct (step c x e).
Qed.
Lemma whole_slices : slices (λ d, [(1, d)]).
Proof. intros d Hd. cbn. split_and!; [done| |by rewrite app_nil_r]. intros p ->%elem_of_list_singleton. cbn. lia. Qed.

(** ** C86: a file reported as received is the file that was sent

    Not so.  The receiver recognises the last group by comparing its number with
    the number of groups of the file; but the numbers go on from one transfer of the
    session to the next.  The second file of a session is reported as received when
    its first groups have arrived. *)

Definition whole : bytes → group := λ d, [(1, d)].
Definition in_turn : nat → list nat := λ _, [0%nat].
Definition early : list ev :=
  [EvToR; EvAccept; EvToS;
   EvLoop; EvToR; EvToS; EvToR; EvToS; EvLoop;
   EvLoop; EvToR; EvToS; EvToR; EvWritten; EvToS; EvLoop;
   EvLoop; EvToR; EvToS; EvToR; EvToS].

(** The witness: a file of one group has been sent to the server; then one of three groups follows. *)
Theorem C86_refuted :
  ∃ start d x content,
    c2s_starts 0 [1%nat; 3%nat] = [0; start] ∧ length (split 1 d) = 3%nat ∧ slices whole ∧
    sends_all in_turn (whole <$> split 1 d) ∧
    reached (plain start whole 1 in_turn d) x ∧ received x content ∧ content ≠ d.
Proof.
  destruct (witness (plain 1 whole 1 in_turn [10; 20; 30]) early (λ x, bool_decide (RComplete [10; 20] ∈ r_stat (st_r x)))) as (x & Hr & H);
    [by vm_compute|]. apply bool_decide_eq_true in H.
  exists 1, [10; 20; 30], x, [10; 20]. split; [done|]. split; [done|]. split; [apply whole_slices|]. split; [|split; [exact Hr|split; [exact H|done]]].
  clear. intros rel ws Hr. unfold split in Hr. cbn in Hr. destruct rel as [|[|[|rel]]]; by simplify_eq/=.
Qed.

(** What holds for every number of the first group: what is reported is the
    beginning of the file, and how long that is depends on the number. *)
Theorem C86_prefix_partial : ∀ start slice m order d x content,
  slices slice → (0 < m)%nat → sends_all order (slice <$> split m d) →
  reached (plain start slice m order d) x → received x content →
  content = concat (take (S (length (split m d) - 1 - N.to_nat start)) (split m d)).
Proof.
  intros start slice m order d x content Hs Hm Ho Hr Hc.
  pose proof (λ p, split_nonempty m d p Hm) as Hne.
  pose proof (pieced_wf start slice (split m d) order Some Hs Hne Ho) as Hwf.
  pose proof (pieced_dec start slice (split m d) (split m d) order Some Hs Hne (all_some _)) as Hps.
  destruct (received_prefix _ _ _ _ (inv_reached _ Hwf _ Hps _ Hr) Hc) as [_ ->].
  unfold K. by rewrite pieced_total.
Qed.

(** What holds: the first transfer of a session, and any file of one group. *)
Theorem C86_partial : ∀ start slice m order d x content,
  slices slice → (0 < m)%nat → sends_all order (slice <$> split m d) →
  start = 0 ∨ (length d <= m)%nat →
  reached (plain start slice m order d) x → received x content → content = d.
Proof.
  intros start slice m order d x content Hs Hm Ho Hst Hr Hc.
  rewrite (C86_prefix_partial _ _ _ _ _ _ _ Hs Hm Ho Hr Hc). rewrite <- (split_concat m d Hm) at 3. f_equal.
  destruct Hst as [->|Hl].
  - apply take_ge. cbn. lia.
  - destruct (decide (d = [])) as [->|Hd]; [done|]. by rewrite (split_one m d Hd Hl).
Qed.

(** A file of five bytes in groups of two, cut into waves of one byte that arrive in the opposite order. *)
Definition by_byte : bytes → group := λ d, (λ b, (1, [b])) <$> d.
Definition backwards (n : nat) : list nat := reverse (seq 0 n).
Definition five : bytes := [1; 2; 3; 4; 5].
Definition five_order : nat → list nat := λ rel, backwards (if Nat.eqb rel 2 then 1 else 2).
Definition five_run : list ev :=
  [EvToR; EvAccept; EvToS;
   EvLoop; EvToR; EvToS; EvToR; EvToR; EvToS; EvToS; EvLoop;
   EvLoop; EvToR; EvToS; EvToR; EvToR; EvToS; EvToS; EvLoop;
   EvLoop; EvToR; EvToS; EvToR; EvWritten; EvToS; EvLoop; EvLoop].
Example C86_example :
  (λ x, (r_stat (st_r x), s_stat (st_s x))) <$> run (plain 0 by_byte 2 five_order five) init five_run =
    Some ([RBegin; RTick 0; RTick 1; RComplete five], [SBegin; STick 0; STick 1; SComplete]) ∧
  split 2 five = [[1; 2]; [3; 4]; [5]] ∧
  slices by_byte ∧ sends_all five_order (by_byte <$> split 2 five) ∧
  group_size None = Fine default_bytes ∧ group_size (Some 4096) = Fine 4096.
Proof.
  split_and!; try by vm_compute.
  - intros d Hd. unfold by_byte. split_and!.
    + by destruct d.
    + intros p (b & -> & _)%elem_of_list_fmap. cbn. lia.
    + rewrite <- list_fmap_compose. clear. induction d as [|b d IH]; [done|]. cbn. by f_equal.
  - intros rel ws Hr. unfold split in Hr. cbn in Hr. destruct rel as [|[|[|rel]]]; simplify_eq/=; try done.
    + apply (Permutation_swap 0%nat 1%nat []).
    + apply (Permutation_swap 0%nat 1%nat []).
Qed.

(** ** C87: an accepted transfer comes to an end on both sides

    Not so.  For an empty file no group is ever sent, and with the second file of a
    session the sender waits for the acknowledgement of a group the receiver no
    longer wants. *)
Definition stuck (c : cfg) (x : st) : Prop :=
  quiet c x ∧ st_ans x = Accepted ∧ ¬ transferred x ∧ SFail ∉ s_stat (st_s x).
Definition stuckb (c : cfg) (x : st) : bool :=
  quietb c x && bool_decide (st_ans x = Accepted) && bool_decide (¬ transferred x) && bool_decide (SFail ∉ s_stat (st_s x)).
Lemma stuckb_ok c x : stuckb c x = true → stuck c x.
Proof.
  unfold stuckb. rewrite !andb_true_iff, !bool_decide_eq_true. intros [[[H ?] ?] ?]. split_and!; try done. by apply quietb_ok.
Qed.

Theorem C87_refuted :
  (∃ x, reached (plain 0 whole 4 in_turn []) x ∧ stuck (plain 0 whole 4 in_turn []) x ∧ ∀ content, ¬ received x content) ∧
  (∃ x, reached (plain 1 whole 1 in_turn [10; 20; 30]) x ∧ stuck (plain 1 whole 1 in_turn [10; 20; 30]) x).
Proof.
  split.
  - destruct (witness (plain 0 whole 4 in_turn []) [EvToR; EvAccept; EvToS; EvLoop]
      (λ x, stuckb (plain 0 whole 4 in_turn []) x && bool_decide (r_stat (st_r x) = [RBegin]))) as (x & Hr & H); [by vm_compute|].
    apply andb_true_iff in H as [H1 H2%bool_decide_eq_true]. exists x. split; [exact Hr|]. split; [by apply stuckb_ok|].
    clear -H2. intros b Hb. unfold received in Hb. rewrite H2 in Hb. by apply elem_of_list_singleton in Hb.
  - destruct (witness (plain 1 whole 1 in_turn [10; 20; 30]) early (stuckb (plain 1 whole 1 in_turn [10; 20; 30]))) as (x & Hr & H); [by vm_compute|].
    exists x. split; [exact Hr|by apply stuckb_ok].
Qed.

(** What holds: every run of a transfer comes to rest within a number of steps
    given by its size, … *)
Theorem C87_bound_partial : ∀ start slice m order d es x,
  slices slice → (0 < m)%nat → sends_all order (slice <$> split m d) →
  run (plain start slice m order d) init es = Some x →
  (length es <= budget (plain start slice m order d))%nat.
Proof.
  intros start slice m order d es x Hs Hm Ho E.
  pose proof (λ p, split_nonempty m d p Hm) as Hne.
  pose proof (pieced_wf start slice (split m d) order Some Hs Hne Ho) as Hwf.
  pose proof (pieced_dec start slice (split m d) (split m d) order Some Hs Hne (all_some _)) as Hps.
  by apply (run_bound _ Hwf _ Hps es x).
Qed.

(** … and if the file is not empty and is the first of its session, or has one
    group, then both users have been told of the end by then. *)
Theorem C87_partial : ∀ start slice m order d x,
  slices slice → (0 < m)%nat → sends_all order (slice <$> split m d) →
  d ≠ [] → start = 0 ∨ (length d <= m)%nat →
  reached (plain start slice m order d) x → st_ans x = Accepted → quiet (plain start slice m order d) x →
  received x d ∧ transferred x.
Proof.
  intros start slice m order d x Hs Hm Ho Hd Hst Hr Ha Hq.
  pose proof (λ p, split_nonempty m d p Hm) as Hne.
  pose proof (pieced_wf start slice (split m d) order Some Hs Hne Ho) as Hwf.
  pose proof (pieced_dec start slice (split m d) (split m d) order Some Hs Hne (all_some _)) as Hps.
  destruct (quiet_done _ Hwf _ Hps x (inv_reached _ Hwf _ Hps _ Hr)) as [[b Hb] Ht]; try done.
  - unfold K. rewrite pieced_total. destruct Hst as [->|Hl]; [|by rewrite (split_one m d Hd Hl)].
    destruct (split m d) eqn:E; [|cbn; lia]. by rewrite <- (split_concat m d Hm), E in Hd.
  - split; [|done]. by rewrite (C86_partial _ _ _ _ _ _ _ Hs Hm Ho Hst Hr Hb) in Hb.
Qed.
Example C87_example :
  budget (plain 0 by_byte 2 five_order five) = 29%nat ∧ length five_run = 27%nat ∧
  (λ x, forallb (λ e, match step (plain 0 by_byte 2 five_order five) x e with None => true | Some _ => false end)
          [EvLoop; EvToR; EvToS; EvWritten]) <$> run (plain 0 by_byte 2 five_order five) init five_run = Some true.
Proof. by vm_compute. Qed.

(** if the receiver declines, the sender is told so, and nothing is transferred *)
Theorem C87_declined : ∀ c x,
  reached c x → st_ans x = Declined → quiet c x →
  s_stat (st_s x) = [SFail] ∧ r_stat (st_r x) = [RFail] ∧ st_hs x = [FileHeader].
Proof.
  intros c x Hr Ha Hq. pose proof (undone_reached c x Hr) as Hu. unfold undone in Hu. rewrite Ha in Hu.
  destruct Hu as ((_ & _ & Hrs) & Hhs & Hhr & [[Hc Hs]|[Hc Hs]]); [|by rewrite Hs].
  exfalso. assert (H : step c x EvToS = None) by (apply Hq; set_solver). cbn [step] in H. rewrite Hhr, Hc in H. cbn [lookup list_lookup] in H.
  destruct (snd_recv c (st_s x) (HeaderAck false)). done.
Qed.
Print Assumptions C87_declined.
Example C87_declined_example :
  (λ x, (s_stat (st_s x), quietb (plain 0 whole 4 in_turn [1; 2]) x)) <$> run (plain 0 whole 4 in_turn [1; 2]) init [EvToR; EvDecline; EvToS] = Some ([SFail], true).
Proof. by vm_compute. Qed.

(** ** C88: a file taken out of the virtual filesystem is deleted only after it has arrived

    Not so.  The sender goes on to the next group, or ends, when two thirds of the
    packets of a group are acknowledged; when it ends, the file is deleted.  The
    rest of the last group may still be on the way. *)
Definition two_waves : bytes → group := λ d, [(2, take 1 d); (1, drop 1 d)].
Definition both : nat → list nat := λ _, [0%nat; 1%nat].
Theorem C88_refuted :
  ∃ d x, let c := plain 0 two_waves 8 both d in
    wf c ∧ concat (group_bytes <$> t_groups c) = d ∧ reached c x ∧ closed x ∧ ¬ transferred x ∧
    (st_b x < length (st_hs x))%nat ∧ ∀ content, ¬ received x content.
Proof.
  destruct (witness (plain 0 two_waves 8 both [1; 2]) [EvToR; EvAccept; EvToS; EvLoop; EvToR; EvToS; EvToR; EvToS; EvLoop; EvLoop]
    (λ x, s_hook (st_s x) && bool_decide (¬ transferred x) && Nat.ltb (st_b x) (length (st_hs x)) && bool_decide (r_stat (st_r x) = [RBegin])))
    as (x & Hr & H); [by vm_compute|].
  apply andb_true_iff in H as [H H4%bool_decide_eq_true]. apply andb_true_iff in H as [H H3%Nat.ltb_lt].
  apply andb_true_iff in H as [H1 H2%bool_decide_eq_true].
  exists [1; 2], x. cbn zeta. split; [|split; [done|]; split; [exact Hr|]; split; [exact H1|]; split; [exact H2|]; split; [exact H3|]].
  - clear. intros rel ws Hr. unfold plain, split in Hr. cbn in Hr. destruct rel as [|rel]; simplify_eq/=. split_and!; try done.
    intros p Hp. apply elem_of_cons in Hp as [->|Hp]; [cbn; lia|]. apply elem_of_list_singleton in Hp as ->. cbn; lia.
  - clear -H4. intros b Hb. unfold received in Hb. rewrite H4 in Hb. by apply elem_of_list_singleton in Hb.
Qed.

(** What holds: if every group is one wave, and the transfer is the first of its
    session or has one group, the file has arrived when it is deleted. *)
Theorem C88_partial : ∀ start slice m order d x,
  slices slice → (0 < m)%nat → sends_all order (slice <$> split m d) →
  (∀ p, p ∈ split m d → length (slice p) = 1%nat) →
  d ≠ [] → start = 0 ∨ (length d <= m)%nat →
  reached (plain start slice m order d) x → closed x → received x d.
Proof.
  intros start slice m order d x Hs Hm Ho H1 Hd Hst Hr Ha.
  pose proof (λ p, split_nonempty m d p Hm) as Hne.
  pose proof (pieced_wf start slice (split m d) order Some Hs Hne Ho) as Hwf.
  pose proof (pieced_dec start slice (split m d) (split m d) order Some Hs Hne (all_some _)) as Hps.
  destruct (hook_received _ Hwf _ x (inv_reached _ Hwf _ Hps _ Hr)) as [b Hb]; try done.
  - unfold K. rewrite pieced_total. destruct Hst as [->|Hl]; [|by rewrite (split_one m d Hd Hl)].
    destruct (split m d) eqn:E; [|cbn; lia]. by rewrite <- (split_concat m d Hm), E in Hd.
  - intros rel ws E. cbn [t_groups pieced] in E. rewrite list_lookup_fmap in E. destruct (split m d !! rel) as [p|] eqn:E'; [|done].
    injection E as <-. apply H1. by eapply elem_of_list_lookup_2.
  - by rewrite (C86_partial _ _ _ _ _ _ _ Hs Hm Ho Hst Hr Hb) in Hb.
Qed.
Example C88_example :
  let c := plain 0 whole 2 in_turn [1; 2; 3] in
  (λ x, (s_hook (st_s x), r_stat (st_r x))) <$> run c init
    [EvToR; EvAccept; EvToS; EvLoop; EvToR; EvToS; EvToR; EvToS; EvLoop; EvLoop; EvToR; EvToS; EvToR; EvWritten; EvToS; EvLoop; EvLoop]
    = Some (true, [RBegin; RTick 0; RComplete [1; 2; 3]]).
Proof. by vm_compute. Qed.

(** ** C89: what is put into the remote encrypted filesystem can be got back

    Not so.  A file is encrypted group by group before it is sent; what is stored is
    longer than the file, and it is sent back cut into groups anew.  A group that is
    cut elsewhere cannot be decrypted. *)
Lemma failed_run (a b : bytes) dec : dec (a ++ []) = None →
  let c := mk_cfg 0 [[(1, a)]; [(1, b)]] in_turn dec in
  (λ x, bool_decide (st_ans x = Accepted) && bool_decide (r_stat (st_r x) = [RBegin; RFail]) && quietb c x)
    <$> run c init [EvToR; EvAccept; EvToS; EvLoop; EvToR; EvToS; EvToR; EvToS] = Some true.
Proof. intros H c. subst c. vm_compute in H. vm_compute. rewrite H. reflexivity. Qed.

Definition with_length (x : bytes) : bytes := N.of_nat (length x) :: x.
Definition check_length (y : bytes) : option bytes :=
  match y with n :: x => if n =? N.of_nat (length x) then Some x else None | [] => None end.

(** The witness, for every size [m] of a group: a file of exactly one group. *)
Theorem C89_refuted : ∀ m, (0 < m)%nat →
  ∃ enc dec d x, let c := mk_cfg 0 (pull_groups whole m (stored enc m d)) in_turn dec in
    (∀ y, dec (enc y) = Some y) ∧ length d = m ∧ reached c x ∧ quiet c x ∧ st_ans x = Accepted ∧
    ∀ content, ¬ received x content.
Proof.
  intros m Hm. exists with_length, check_length, (replicate m 7).
  assert (Hst : stored with_length m (replicate m 7) = N.of_nat m :: replicate m 7).
  { unfold stored. rewrite split_one; [|by destruct m; [lia|]|by rewrite replicate_length]. cbn. by rewrite app_nil_r, replicate_length. }
  assert (Hsp : split m (N.of_nat m :: replicate m 7) = [take m (N.of_nat m :: replicate m 7); [7]]).
  { destruct m as [|k]; [lia|]. unfold split. cbn [length pieces]. f_equal.
    cbn [drop]. rewrite replicate_length. change (replicate (S k) 7) with (7 :: replicate k 7). rewrite replicate_cons_app || idtac.
    assert (Hd : drop k (replicate k 7 ++ [7]) = [7 : N]) by (apply drop_app_alt; by rewrite replicate_length).
    rewrite Hd. cbn [pieces]. rewrite take_ge by (cbn; lia). rewrite drop_ge by (cbn; lia). by destruct k. }
  assert (Hdec : check_length (take m (N.of_nat m :: replicate m 7) ++ []) = None).
  { destruct m as [|k]; [lia|]. rewrite app_nil_r. cbn [take check_length]. rewrite take_length, replicate_length.
    rewrite (proj2 (N.eqb_neq _ _)); [done|lia]. }
  pose proof (failed_run _ [7] check_length Hdec) as H. cbn zeta in H. unfold pull_groups. rewrite Hst, Hsp.
  change (whole <$> [take m (N.of_nat m :: replicate m 7); [7]]) with [[(1, take m (N.of_nat m :: replicate m 7))]; [(1, [7])]].
  set (c := mk_cfg 0 [[(1, take m (N.of_nat m :: replicate m 7))]; [(1, [7])]] in_turn check_length) in *.
  apply witness in H as (x & Hr & H).
  apply andb_true_iff in H as [H H3]. apply andb_true_iff in H as [H1%bool_decide_eq_true H2%bool_decide_eq_true].
  exists x. cbn zeta. split; [|split; [by rewrite replicate_length|]; split; [exact Hr|]; split; [by apply quietb_ok|]; split; [exact H1|]].
  - clear. intros y. cbn. by rewrite N.eqb_refl.
  - clear -H2. intros b Hb. unfold received in Hb. rewrite H2 in Hb. apply elem_of_cons in Hb as [?|?%elem_of_list_singleton]; done.
Qed.

(** What holds: a file that is stored as one group, and that fits into one group
    when it is sent back, is got back. *)
Theorem C89_partial : ∀ slice enc dec m' m start start' order order' d x x' content,
  slices slice → dec (enc d) = Some d → d ≠ [] → enc d ≠ [] → (length d <= m')%nat → (length (enc d) <= m)%nat →
  (* put *)
  let put := mk_cfg start (slice <$> (enc <$> split m' d)) order Some in
  sends_all order (t_groups put) → reached put x → received x content →
  content = stored enc m' d ∧
  (* got back *)
  let get := mk_cfg start' (pull_groups slice m content) order' dec in
  (sends_all order' (t_groups get) → reached get x' →
   (∀ content', received x' content' → content' = d) ∧
   (st_ans x' = Accepted → quiet get x' → received x' d ∧ transferred x')).
Proof.
  intros slice enc dec m' m start start' order order' d x x' content Hs Hde Hd Hed Hl Hel put Ho Hr Hc.
  assert (Hst : stored enc m' d = enc d) by (unfold stored; rewrite (split_one _ _ Hd Hl); cbn; apply app_nil_r).
  assert (Hcont : content = enc d).
  { unfold put in *. rewrite (split_one _ _ Hd Hl) in *. change (enc <$> [d]) with [enc d] in *.
    assert (Hne : ∀ p, p ∈ [enc d] → p ≠ []) by (by intros p ->%elem_of_list_singleton).
    pose proof (pieced_wf start slice [enc d] order Some Hs Hne Ho) as Hwf.
    pose proof (pieced_dec start slice [enc d] [enc d] order Some Hs Hne (all_some _)) as Hps.
    destruct (received_prefix _ _ _ _ (inv_reached _ Hwf _ Hps _ Hr) Hc) as [_ ->].
    unfold K. cbn [take concat]. by rewrite take_nil, app_nil_r. }
  split; [by rewrite Hst|]. intros get Ho' Hr'. unfold get, pull_groups in *. rewrite Hcont in *. rewrite (split_one _ _ Hed Hel) in *.
  assert (Hne : ∀ p, p ∈ [enc d] → p ≠ []) by (by intros p ->%elem_of_list_singleton).
  pose proof (pieced_wf start' slice [enc d] order' dec Hs Hne Ho') as Hwf.
  pose proof (pieced_dec start' slice [enc d] [d] order' dec Hs Hne) as Hps. specialize (Hps ltac:(by repeat constructor)).
  pose proof (inv_reached _ Hwf _ Hps _ Hr') as I.
  assert (Hall : ∀ content', received x' content' → content' = d).
  { intros c' Hc'. destruct (received_prefix _ _ _ _ I Hc') as [_ ->]. unfold K. cbn [take concat]. by rewrite take_nil, app_nil_r. }
  split; [done|]. intros Ha Hq. destruct (quiet_done _ Hwf _ Hps x' I) as [[b Hb] Ht]; [|done|done|].
  - unfold K. rewrite pieced_total. done.
  - split; [|done]. by rewrite (Hall b Hb) in Hb.
Qed.
Example C89_example :
  let put := mk_cfg 0 (whole <$> (with_length <$> split 4 [5; 6])) in_turn Some in
  let get := mk_cfg 3 (pull_groups whole 4 [2; 5; 6]) in_turn check_length in
  let es := [EvToR; EvAccept; EvToS; EvLoop; EvToR; EvToS; EvToR; EvWritten; EvToS; EvLoop; EvLoop] in
  (λ x, r_stat (st_r x)) <$> run put init es = Some [RBegin; RComplete [2; 5; 6]] ∧
  (λ x, r_stat (st_r x)) <$> run get init es = Some [RBegin; RComplete [5; 6]].
Proof. by vm_compute. Qed.

(** ** C90: nothing a user or a peer supplies crashes the sender

    Not so.  An acknowledgement of the header of a group that is not (or no longer)
    being sent makes the sender unwrap a missing entry; a group size of zero makes
    it divide by zero. *)
Theorem C90_refuted :
  (∃ x, reached (plain 0 whole 4 in_turn [1; 2]) x ∧ transferred x ∧ GroupHeaderAck 0 ∈ st_hr x ∧ ¬ crashed x ∧
     s_panic (snd_recv (plain 0 whole 4 in_turn [1; 2]) (st_s x) (GroupHeaderAck 0)).1 = true) ∧
  group_size (Some 0) = Panics.
Proof.
  split; [|by vm_compute].
  destruct (witness (plain 0 whole 4 in_turn [1; 2])
    [EvToR; EvAccept; EvToS; EvLoop; EvToR; EvToS; EvToR; EvWritten; EvToS; EvLoop; EvLoop]
    (λ x, bool_decide (transferred x) && bool_decide (GroupHeaderAck 0 ∈ st_hr x) && negb (s_panic (st_s x)) &&
          s_panic (snd_recv (plain 0 whole 4 in_turn [1; 2]) (st_s x) (GroupHeaderAck 0)).1)) as (x & Hr & H); [by vm_compute|].
  apply andb_true_iff in H as [H H4]. apply andb_true_iff in H as [H H3%negb_true_iff].
  apply andb_true_iff in H as [H1%bool_decide_eq_true H2%bool_decide_eq_true].
  exists x. split; [exact Hr|]. split; [exact H1|]. split; [exact H2|]. split; [|exact H4]. unfold crashed. by rewrite H3.
Qed.

(** What holds: with an honest receiver there is no crash, in any order of events,
    … *)
Theorem C90_partial : ∀ start slice m order d x,
  slices slice → (0 < m)%nat → sends_all order (slice <$> split m d) →
  reached (plain start slice m order d) x → ¬ crashed x.
Proof.
  intros start slice m order d x Hs Hm Ho Hr.
  pose proof (λ p, split_nonempty m d p Hm) as Hne.
  pose proof (pieced_wf start slice (split m d) order Some Hs Hne Ho) as Hwf.
  pose proof (pieced_dec start slice (split m d) (split m d) order Some Hs Hne (all_some _)) as Hps.
  destruct (inv_reached _ Hwf _ Hps _ Hr) as [[u V] _]. unfold crashed. by rewrite (sv_pan _ _ _ V).
Qed.
(** … and with any receiver only such an acknowledgement does it; of the sizes of a
    group only zero does it. *)
Theorem C90_only_partial : ∀ c s m,
  s_panic s = false → (∀ g, m = GroupHeaderAck g → is_Some (s_tx s !! g)) → s_panic (snd_recv c s m).1 = false.
Proof.
  intros c s m Hp H. unfold snd_recv. rewrite Hp. destruct m as [ok|g|g w|known].
  - destruct (s_on s); done.
  - destruct (H g eq_refl) as [y ->]. done.
  - cbn. unfold snd_wave_ack. destruct (s_tx s !! g) as [y|]; [|done]. by destruct (t_groups c !! x_rel y).
  - by destruct known.
Qed.
Theorem C90_size_partial : ∀ o, group_size o = Panics ↔ o = Some 0.
Proof.
  intros [n|]; unfold group_size; cbn [default from_option id].
  - destruct (max_bytes <? n) eqn:E1; [split; [done|intros [= ->]; done]|].
    destruct (n =? 0) eqn:E2; split; try done.
    + intros _. f_equal. lia.
    + intros [= ->]. done.
  - by vm_compute.
Qed.
Example C90_example :
  group_size (Some 1) = Fine 1 ∧ group_size (Some (max_bytes + 1)) = Refused ∧
  (λ x, s_panic (snd_recv (plain 0 whole 4 in_turn [1; 2]) (st_s x) (GroupHeaderAck 0)).1) <$>
    run (plain 0 whole 4 in_turn [1; 2]) init [EvToR; EvAccept; EvToS; EvLoop; EvToR] = Some false.
Proof. by vm_compute. Qed.

Print Assumptions C86_refuted.
Print Assumptions C86_prefix_partial.
Print Assumptions C86_partial.
Print Assumptions C87_refuted.
Print Assumptions C87_bound_partial.
Print Assumptions C87_partial.
Print Assumptions C88_refuted.
Print Assumptions C88_partial.
Print Assumptions C89_refuted.
Print Assumptions C89_partial.
Print Assumptions C90_refuted.
Print Assumptions C90_partial.
Print Assumptions C90_only_partial.
Print Assumptions C90_size_partial.
