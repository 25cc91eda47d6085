(** C25, C59, C60, C85: the command hierarchy. *)
From Coq Require Import ZifyBool ZifyNat ZifyN.
From stdpp Require Import prelude gmap.
From Verif Require Import Types_Model Types_Proofs Hierarchy_Model Hierarchy_Spec Hierarchy_Proofs.
Local Open Scope N_scope.

(** C25. A message sealed by the member of any unit p ++ x is opened, to exactly its bytes, by the member of p
    (every superior, and with x = [] the unit itself), whatever the policies and with or without a flat key. *)
Theorem C25_superiors_read H : hlaws H → ∀ root pol pol' p x superior sender flat flat' key r text e,
  derive_descendant H (h_root H root pol) p = Some superior →
  derive_descendant H (h_root H root pol') (p ++ x) = Some sender →
  seal_message H sender flat key r text = Some e → open_message H superior flat' e = Some text.
Proof. intros L root pol pol' p x ma mp flat flat' key r text e. by apply seal_open. Qed.

(** and every unit has a member, who can seal *)
Theorem C25_units_exist H : hlaws H → ∀ root pol p flat key r text,
  ∃ m, derive_descendant H (h_root H root pol) p = Some m ∧ hm_path m = p ∧
    ((pol = BroadcastAudit → is_Some flat) → ∃ e, seal_message H m flat key r text = Some e).
Proof.
  intros L root pol p flat key r text. rewrite derive_root. eexists. split; [reflexivity|]. split; [done|].
  intros Hf. by apply (seal_total H L).
Qed.

(** Under the audit policy every other member of the flat group opens it too; under the superior-only policy, or
    without the flat key, nobody outside the command path does. *)
Theorem C25_others H : hlaws H → ∀ me sender f flat' key r text e,
  seal_message H sender (Some f) key r text = Some e → (∀ x, hm_path sender ≠ hm_path me ++ x) →
  (hm_policy sender = BroadcastAudit → open_message H me (Some f) e = Some text) ∧
  (hm_policy sender = SuperiorOnly ∨ flat' = None → open_message H me flat' e = None).
Proof.
  intros L me sender f flat' key r text e He Hn.
  assert (Ha : is_ancestor_of (hm_path me) (hm_path sender) = false).
  { apply not_true_iff_false. intros Ha. apply ancestor_iff in Ha as [x Hx]. by apply (Hn x). }
  split; intros Hp; [by eapply audit_open|by eapply refused].
Qed.

(** C25, secrecy with symbolic cryptography. In every group history (joins, kicks, promotions, demotions, messages)
    whoever pools the leaf secrets of a set of members, any flat keys and the whole wire can compute the secret of a
    unit exactly if one of them was granted that unit or a superior of it in the same generation. *)
Theorem C25_unit_secret pol ranks ownleaf root flat os bad flats g p :
  known (hw_wire (hrun (hfounded pol ranks ownleaf root flat) os)) bad flats (unit_secret g p) ↔
  superior (book_after ranks root flat os) bad g p.
Proof.
  destruct (hrun_ok pol ranks ownleaf root flat os) as [HI Hs]. by eapply unit_known_iff.
Qed.

(** And the content key of a message exactly if one of them was granted the sender's unit at that moment or a superior
    of it, or, under the audit policy, if they have the flat key of that moment. *)
Theorem C25_message_secret pol ranks ownleaf root flat os1 who key text os2 bad flats p :
  let os := os1 ++ HSend who key text :: os2 in
  let b1 := book_after ranks root flat os1 in
  NoDup (keys os) → unit_of b1 who = Some p →
  known (hw_wire (hrun (hfounded pol ranks ownleaf root flat) os)) bad flats (HKey key) ↔
  superior (book_after ranks root flat os) bad (bk_gen b1) p ∨ (pol = BroadcastAudit ∧ flats (bk_flat b1)).
Proof.
  intros os b1 Hnd Hu. destruct (hrun_ok pol ranks ownleaf root flat os) as [HI Hs].
  rewrite (key_known_iff pol _ (bk_init ranks root flat) os bad flats HI Hs key). unfold key_open, b1, book_after in *. split.
  - intros (os1' & who' & text' & os2' & p' & E & Hu' & Hor).
    destruct (keys_unique _ _ _ _ _ _ _ _ _ Hnd E) as (-> & -> & ->). rewrite Hu in Hu'. injection Hu' as <-. exact Hor.
  - intros Hor. by exists os1, who, text, os2, p.
Qed.

(** A demoted member: with the fresh root of the demotion, its only unit is the isolated one, so it cannot read the
    messages of anybody outside it (in a superior-only group), whatever it held before. *)
Lemma bk_sends b os : Forall (λ o, match o with HSend _ _ _ => True | _ => False end) os → bk_run b os = b.
Proof.
  revert b. induction os as [|o os IH]; intros b Hs; [done|]. apply Forall_cons in Hs as [Ho Hs].
  destruct o; try done. cbn. by apply IH.
Qed.
Lemma grants_gen b os n g p : (n, g, p) ∈ bk_grants (bk_run b os) → (n, g, p) ∈ bk_grants b ∨ g = bk_gen b ∨ g ∈ roots os.
Proof.
  revert b. induction os as [|o os IH]; intros b Hin; [by left|].
  assert (Hgr : ∀ b' c, (n, g, p) ∈ grant b' c → g = bk_gen b').
  { intros b' c Hc. unfold grant in Hc. destruct (bk_joined b' !! c), (bk_ranks b' !! c); try by apply elem_of_nil in Hc.
    by apply elem_of_list_singleton in Hc as [= -> -> ->]. }
  specialize (IH (bk_step b o) Hin). destruct o as [cid n0|cid f|cid p0|cid seg r f|who k t]; cbn [bk_step bk_grants bk_gen] in IH; cbn [roots omap list_omap]; fold (roots os).
  - rewrite elem_of_app in IH. destruct IH as [[IH|IH]|IH]; [|by left|by right]. apply Hgr in IH. by right; left.
  - exact IH.
  - rewrite elem_of_app in IH. destruct IH as [[IH|IH]|IH]; [|by left|by right]. apply Hgr in IH. by right; left.
  - rewrite elem_of_app in IH. assert (g = r ∨ (n, g, p) ∈ bk_grants b ∨ g ∈ roots os) as [->|[?|?]]; [|right; right; by left|by left|right; right; by right].
    destruct IH as [[IH|IH]|[IH|IH]]; [|tauto|tauto|tauto]. left.
    rewrite elem_of_list_In, in_concat in IH. destruct IH as (l & Hl & IH). apply elem_of_list_In, elem_of_list_fmap in Hl as (c & -> & _).
    apply elem_of_list_In in IH. by apply Hgr in IH.
  - exact IH.
Qed.
Theorem C25_demoted_reads_nothing ranks ownleaf root flat os1 cid seg r f os2 who key text os3 n p :
  let os := os1 ++ HDemote cid seg r f :: (os2 ++ HSend who key text :: os3) in
  Forall (λ o, match o with HSend _ _ _ => True | _ => False end) (os2 ++ os3) →
  r ≠ root → r ∉ roots os1 → NoDup (keys os) →
  (∀ c, bk_joined (book_after ranks root flat os1) !! c = Some n → c = cid) →
  unit_of (book_after ranks root flat (os1 ++ HDemote cid seg r f :: os2)) who = Some p → (∀ x, p ≠ seg :: x) →
  ¬ known (hw_wire (hrun (hfounded SuperiorOnly ranks ownleaf root flat) os)) (λ m, m = n) (λ _, True) (HKey key).
Proof.
  intros os Hsend Hr Hroots Hnd Hj Hu Hp Hk. apply Forall_app in Hsend as [Hs2 Hs3].
  assert (Eos : os = (os1 ++ HDemote cid seg r f :: os2) ++ HSend who key text :: os3) by (unfold os; by rewrite <- app_assoc).
  rewrite Eos in Hk, Hnd. apply (C25_message_secret SuperiorOnly ranks ownleaf root flat _ who key text os3 _ _ p Hnd Hu) in Hk.
  destruct Hk as [(m & q & x & -> & Hg & ->)|[? _]]; [|done].
  unfold book_after, bk_run in Hg. rewrite !foldl_app in Hg. cbn [foldl bk_step] in Hg.
  fold (bk_run (bk_init ranks root flat) os1) in Hg.
  set (b1 := bk_run (bk_init ranks root flat) os1) in *.
  match type of Hg with context [foldl bk_step ?X os2] => set (b2 := X) in *; fold (bk_run b2 os2) in Hg end.
  fold (bk_run (bk_run b2 os2) os3) in Hg. rewrite !bk_sends in Hg by done. cbn [bk_gen b2] in Hg.
  unfold b2 in Hg. cbn [bk_grants] in Hg. apply elem_of_app in Hg as [Hg|Hg].
  - rewrite elem_of_list_In, in_concat in Hg. destruct Hg as (l & Hl & Hg). apply elem_of_list_In, elem_of_list_fmap in Hl as (c & -> & _).
    apply elem_of_list_In in Hg. unfold grant in Hg. cbn [bk_joined bk_ranks bk_gen] in Hg.
    destruct (bk_joined b1 !! c) as [n'|] eqn:Ec; [|by apply elem_of_nil in Hg].
    destruct (<[cid:=[seg]]> (bk_ranks b1) !! c) as [p'|] eqn:Er; [|by apply elem_of_nil in Hg].
    apply elem_of_list_singleton in Hg as [= -> ->]. apply Hj in Ec as ->. rewrite lookup_insert in Er. injection Er as <-.
    by apply (Hp x).
  - destruct (grants_gen _ _ _ _ _ Hg) as [H|[H|H]]; [by apply elem_of_nil in H| |done]. by cbn in H.
Qed.

Definition seg (c : N) : rstring := [c].
Definition ex_ranks : gmap N command_path := {[ 2 := [seg 1]; 3 := [seg 1; seg 2]; 4 := [seg 3] ]}.
Definition ex_ops : list hop :=
  [HJoin 2 102; HJoin 3 103; HJoin 4 104; HJoin 5 105; HSend (Some 3) 1 [7; 8]; HPromote 5 [seg 1; seg 2; seg 9]; HSend (Some 5) 2 [9];
   HDemote 2 (seg 77) 1 1; HSend (Some 3) 3 [5]].
(** Account 2 (unit /1) and the owner read the first message of account 3 (unit /1/2), account 4 (unit /3) does not; after
    the demotion account 2 does not read the third message either, but the owner does. *)
Example C25_example :
  let w := hrun (hfounded SuperiorOnly ex_ranks 100 0 0) in
  let at_end := w ex_ops in
  let before := w (take 7 ex_ops) in
  let reads (w : hworld) cid e := match hw_members w !! cid with Some st => decrypt_dhe hsym st e | None => None end in
  match omap (λ x, match x with WMsg e => Some e | _ => None end) (hw_wire at_end) with
  | [e3; e2; e1] =>
      reads before 2 e1 = Some [7; 8] ∧ reads before 3 e1 = Some [7; 8] ∧ reads before 4 e1 = None ∧ reads before 5 e1 = None ∧
      decrypt_dhe hsym (hw_owner before) e1 = Some [7; 8] ∧ reads before 3 e2 = Some [9] ∧
      reads at_end 2 e3 = None ∧ reads at_end 3 e3 = Some [5] ∧ decrypt_dhe hsym (hw_owner at_end) e3 = Some [5]
  | _ => False
  end ∧
  bk_grants (book_after ex_ranks 0 0 (take 7 ex_ops)) =
    [(105, 0, [seg 1; seg 2; seg 9]); (104, 0, [seg 3]); (103, 0, [seg 1; seg 2]); (102, 0, [seg 1])].
Proof. vm_compute. split_and!; reflexivity. Qed.

(** C59 (false). "A member that has been removed from a command-hierarchy group cannot read later messages." A removal
    re-keys only the flat group; the hierarchy keeps its root, so the removed superior still derives the secrets of
    its former subtree. (It holds again after the next demotion, which draws a new root.) *)
Theorem C59_refuted :
  let ops := [HJoin 2 102; HJoin 3 103; HKick 2 1; HSend (Some 3) 1 [7; 8]] in
  let w := hrun (hfounded SuperiorOnly ex_ranks 100 0 0) ops in
  hw_members w !! 2 = None ∧ is_Some (hw_members w !! 3) ∧
  known (hw_wire w) (λ m, m = 102) (λ _, False) (HKey 1) ∧
  (* the removed member's last state opens the message *)
  match hw_members (hrun (hfounded SuperiorOnly ex_ranks 100 0 0) (take 2 ops)) !! 2, hw_wire w with
  | Some st, WMsg e :: _ => decrypt_dhe hsym st e = Some [7; 8]
  | _, _ => False
  end.
Proof.
  intros ops w. split; [by vm_compute|]. split; [vm_compute; by eexists|]. split; [|by vm_compute].
  pose proof (C25_message_secret SuperiorOnly ex_ranks 100 0 0 [HJoin 2 102; HJoin 3 103; HKick 2 1] (Some 3) 1 [7; 8] []
    (λ m, m = 102) (λ _, False) [seg 1; seg 2]) as Hiff. cbv zeta in Hiff. apply Hiff; clear Hiff.
  - cbn. apply NoDup_singleton.
  - by vm_compute.
  - left. exists 102, [seg 1], [seg 2]. split; [done|]. split; [|done].
    replace (bk_grants _) with [(103, 0, [seg 1; seg 2]); (102, 0, [seg 1])] by (by vm_compute).
    change (bk_gen _) with 0. right. by left.
Qed.

(** C59, what holds. A removed member that is not taken in again reads, of what is sent after its removal, exactly the
    messages of units that it was put above before its removal in the generation still in use (and, under the audit
    policy, those sent under a flat key it has). Missing: a new generation at each removal. *)
Lemma gone_step b o n : (∀ c, bk_joined b !! c ≠ Some n) → (∀ c, o ≠ HJoin c n) →
  (∀ c, bk_joined (bk_step b o) !! c ≠ Some n) ∧ (∀ g p, (n, g, p) ∈ bk_grants (bk_step b o) ↔ (n, g, p) ∈ bk_grants b).
Proof.
  intros Hg Hj. assert (Hgr : ∀ b' c g p, (∀ c, bk_joined b' !! c ≠ Some n) → (n, g, p) ∉ grant b' c).
  { intros b' c g p Hb Hc. unfold grant in Hc. destruct (bk_joined b' !! c) eqn:E; [|by apply elem_of_nil in Hc].
    destruct (bk_ranks b' !! c); [|by apply elem_of_nil in Hc]. apply elem_of_list_singleton in Hc as [= -> -> ->]. by apply (Hb c). }
  destruct o as [cid m|cid f|cid p0|cid seg r f|who k t]; cbn [bk_step bk_joined bk_grants].
  - assert (Hb : ∀ c, <[cid:=m]> (bk_joined b) !! c ≠ Some n).
    { intros c. destruct (decide (c = cid)) as [->|Hn]; [rewrite lookup_insert; intros [= ->]; by apply (Hj cid)|].
      rewrite lookup_insert_ne by done. apply Hg. }
    split; [done|]. intros g p. rewrite elem_of_app. split; [intros [H|H]; [|done]; by apply Hgr in H|by right].
  - split; [|done]. intros c. rewrite lookup_delete_Some. intros [_ H]. by apply (Hg c).
  - split; [done|]. intros g p. rewrite elem_of_app. split; [intros [H|H]; [|done]; by apply Hgr in H|by right].
  - split; [done|]. intros g p. rewrite elem_of_app. split; [|by right]. intros [H|H]; [|done].
    rewrite elem_of_list_In, in_concat in H. destruct H as (l & Hl & H). apply elem_of_list_In, elem_of_list_fmap in Hl as (c & -> & _).
    apply elem_of_list_In in H. by apply Hgr in H.
  - done.
Qed.
Lemma gone_run os : ∀ b n, (∀ c, bk_joined b !! c ≠ Some n) → (∀ c, HJoin c n ∉ os) →
  ∀ g p, (n, g, p) ∈ bk_grants (bk_run b os) ↔ (n, g, p) ∈ bk_grants b.
Proof.
  induction os as [|o os IH]; intros b n Hg Hj g p; [done|]. cbn.
  destruct (gone_step b o n Hg) as [H1 H2]; [intros c ->; apply (Hj c); by left|].
  rewrite <- H2. apply IH; [done|]. intros c Hc. apply (Hj c). by right.
Qed.
Theorem C59_partial pol ranks ownleaf root flat os1 cid f os2 who key text os3 flats n p :
  let kicked := os1 ++ HKick cid f :: os2 in
  let os := kicked ++ HSend who key text :: os3 in
  let b := book_after ranks root flat kicked in
  NoDup (keys os) → (∀ c, HJoin c n ∉ os2 ++ os3) →
  (∀ c, bk_joined (book_after ranks root flat os1) !! c = Some n → c = cid) →
  unit_of b who = Some p →
  known (hw_wire (hrun (hfounded pol ranks ownleaf root flat) os)) (λ m, m = n) flats (HKey key) ↔
  (∃ q x, (n, bk_gen b, q) ∈ bk_grants (book_after ranks root flat os1) ∧ p = q ++ x) ∨
  (pol = BroadcastAudit ∧ flats (bk_flat b)).
Proof.
  intros kicked os b Hnd Hj Hone Hu. unfold os. rewrite (C25_message_secret pol ranks ownleaf root flat kicked who key text os3 _ _ p Hnd Hu).
  fold b os. assert (Hgr : ∀ g q, (n, g, q) ∈ bk_grants (book_after ranks root flat os) ↔ (n, g, q) ∈ bk_grants (book_after ranks root flat os1)).
  { intros g q. unfold os, kicked, book_after, bk_run in *. rewrite <- app_assoc, foldl_app. cbn [app foldl].
    match goal with |- context [foldl bk_step (bk_step ?X _)] => set (b1 := X) in * end.
    change (bk_grants b1) with (bk_grants (bk_step b1 (HKick cid f))).
    apply (gone_run _ (bk_step b1 (HKick cid f)) n).
    - intros c. cbn [bk_step bk_joined]. rewrite lookup_delete_Some. intros [Hn H]. by apply Hone in H.
    - intros c Hc. apply (Hj c). rewrite elem_of_app in Hc |- *. rewrite elem_of_cons in Hc. destruct Hc as [Hc|[Hc|Hc]]; [by left|done|by right]. }
  split; (intros [H|H]; [left|by right]).
  - destruct H as (m & q & x & -> & H & ->). exists q, x. by rewrite <- Hgr.
  - destruct H as (q & x & H & ->). exists n, q, x. by rewrite Hgr.
Qed.
(** In particular it reads nothing more of a superior-only group once the generation has changed, that is after the next
    demotion. *)
Theorem C59_next_demotion_partial ranks ownleaf root flat os1 cid f os2 who key text os3 flats n p :
  let kicked := os1 ++ HKick cid f :: os2 in
  let os := kicked ++ HSend who key text :: os3 in
  let b := book_after ranks root flat kicked in
  NoDup (keys os) → (∀ c, HJoin c n ∉ os2 ++ os3) →
  (∀ c, bk_joined (book_after ranks root flat os1) !! c = Some n → c = cid) →
  unit_of b who = Some p → bk_gen b ≠ root → bk_gen b ∉ roots os1 →
  ¬ known (hw_wire (hrun (hfounded SuperiorOnly ranks ownleaf root flat) os)) (λ m, m = n) flats (HKey key).
Proof.
  intros kicked os b Hnd Hj Hone Hu Hr Hrs Hk.
  apply (C59_partial SuperiorOnly ranks ownleaf root flat os1 cid f os2 who key text os3 flats n p Hnd Hj Hone Hu) in Hk.
  destruct Hk as [(q & x & Hg & _)|[? _]]; [|done]. fold kicked b in Hg.
  destruct (grants_gen _ _ _ _ _ Hg) as [H|[H|H]]; [by apply elem_of_nil in H|by cbn in H|done].
Qed.
(** Accounts 2 (unit /1) and 3 (unit /1/2) join, 2 is removed, the owner sends (2 cannot read it), 4 is demoted, 3 sends
    (2 cannot read that either). *)
Example C59_example :
  let ops1 := [HJoin 2 102; HJoin 3 103; HJoin 4 104] in
  let ops2 := [HSend None 1 [1]; HDemote 4 (seg 77) 1 2] in
  let os := (ops1 ++ HKick 2 1 :: ops2) ++ HSend (Some 3) 2 [7; 8] :: [] in
  ¬ known (hw_wire (hrun (hfounded SuperiorOnly ex_ranks 100 0 0) os)) (λ m, m = 102) (λ _, True) (HKey 2) ∧
  ¬ known (hw_wire (hrun (hfounded SuperiorOnly ex_ranks 100 0 0) os)) (λ m, m = 102) (λ _, True) (HKey 1).
Proof.
  cbv zeta. split.
  - apply (C59_next_demotion_partial ex_ranks 100 0 0 _ 2 1 _ (Some 3) 2 [7; 8] [] (λ _, True) 102 [seg 1; seg 2]).
    + apply (bool_decide_unpack _). by vm_compute.
    + intros c Hc. repeat (apply elem_of_cons in Hc as [Hc|Hc]; [done|]). by apply elem_of_nil in Hc.
    + intros c. replace (bk_joined _) with (<[4 := 104]> (<[3 := 103]> {[2 := 102]}) : gmap N N) by (by vm_compute).
      rewrite !lookup_insert_Some, lookup_singleton_Some. intros [[_ ?]|[_ [[_ ?]|[_ [? _]]]]]; [lia|lia|done].
    + by vm_compute.
    + by vm_compute.
    + by apply not_elem_of_nil.
  - intros Hk.
    apply (C59_partial SuperiorOnly ex_ranks 100 0 0 [HJoin 2 102; HJoin 3 103; HJoin 4 104] 2 1 [] None 1 [1]
      [HDemote 4 (seg 77) 1 2; HSend (Some 3) 2 [7; 8]] (λ _, True) 102 []) in Hk.
    + destruct Hk as [(q & x & Hg & E)|[? _]]; [|done]. symmetry in E. apply app_eq_nil in E as [-> ->].
      replace (bk_grants _) with [(104, 0, [seg 3]); (103, 0, [seg 1; seg 2]); (102, 0, [seg 1])] in Hg by (by vm_compute).
      change (bk_gen _) with 0 in Hg. repeat (apply elem_of_cons in Hg as [Hg|Hg]; [done|]). by apply elem_of_nil in Hg.
    + apply (bool_decide_unpack _). by vm_compute.
    + intros c Hc. repeat (apply elem_of_cons in Hc as [Hc|Hc]; [done|]). by apply elem_of_nil in Hc.
    + intros c. replace (bk_joined _) with (<[4 := 104]> (<[3 := 103]> {[2 := 102]}) : gmap N N) by (by vm_compute).
      rewrite !lookup_insert_Some, lookup_singleton_Some. intros [[_ ?]|[_ [[_ ?]|[_ [? _]]]]]; [lia|lia|done].
    + by vm_compute.
Qed.

(** C60 (false). "Only the owner's assignments take effect: what a member sends can be read only by the members and
    superiors of its group." An assignment is sealed to the member's public leaf key but not authenticated. The relay
    (or any member) can make up a node secret and seal it; the member, even of a flat group, takes it up and from then on
    encrypts its messages to the made-up secret. *)
Theorem C60_refuted n cid key text :
  let m := h_new_joiner hsym (Flat) (HLeaf n) in
  let forged := ABox (LeafPk (HLeaf n)) (mk_hmember [seg cid] (HOwn 0) SuperiorOnly) in
  ∃ m' e, apply_assignment hsym m forged = Some m' ∧ hs_mode hsym m' = Command SuperiorOnly ∧
    encrypt_dhe hsym m' (HKey key) tt text = Some e ∧
    (* the attacker, who knows no secret of any member, reads it *)
    known [WAssign forged; WMsg e] (λ _, False) (λ _, False) (HKey key) ∧
    open_message hsym (mk_hmember [seg cid] (HOwn 0) SuperiorOnly) None e = Some text.
Proof.
  intros m forged. unfold apply_assignment, m, forged. cbn. rewrite bool_decide_true by done. eexists _, _.
  split; [reflexivity|]. split; [reflexivity|]. split; [reflexivity|]. split.
  - eapply kn_hier; [right; by left|reflexivity|apply kn_own].
  - unfold open_message. cbn [hm_path ev_sender]. rewrite ancestor_refl.
    unfold open_as_superior, derive_descendant_secret. cbn [ev_sender hm_path hm_secret]. rewrite ancestor_refl. cbn.
    rewrite bool_decide_true by done. cbn. by rewrite bool_decide_true.
Qed.

Lemma known_fold ws bad flats p : ∀ t, known ws bad flats t → known ws bad flats (foldl HChild t p).
Proof. induction p as [|sg p IH]; intros t Ht; [done|]. cbn [foldl]. apply IH. by apply kn_child. Qed.
(** The owner takes up such an assignment too: a forged top position replaces the root secret of the group, and the
    positions it hands out afterwards are made from a secret the attacker knows. *)
Theorem C60_owner_refuted pol ranks ownleaf root flat cid p n :
  ranks !! cid = Some p →
  let o := h_new_owner hsym (Command pol) ranks (HLeaf ownleaf) (HRoot root) (HGroup flat) in
  let forged := ABox (LeafPk (HLeaf ownleaf)) (mk_hmember [] (HOwn 0) pol) in
  ∃ o' b m, apply_assignment hsym o forged = Some o' ∧
    assignment_for_joiner hsym o' cid (LeafPk (HLeaf n)) tt = Some (Some b) ∧
    aopen hsym (HLeaf n) b = Some m ∧ hm_path m = p ∧
    known [WAssign forged; WAssign b] (λ _, False) (λ _, False) (hm_secret m).
Proof.
  intros Hr o forged.
  exists (mk_hstate hsym true (HLeaf ownleaf) (Command pol) (Some (h_root hsym (HOwn 0) pol)) ranks (Some (HGroup flat))).
  exists (ABox (LeafPk (HLeaf n)) (mk_hmember p (foldl HChild (HOwn 0) p) pol)), (mk_hmember p (foldl HChild (HOwn 0) p) pol).
  split; [unfold apply_assignment, o, forged; cbn; by rewrite bool_decide_true|].
  unfold assignment_for_joiner. cbn [hs_self hs_ranks]. rewrite Hr, (derive_root hsym (HOwn 0) pol p).
  split; [reflexivity|]. split; [cbn; by rewrite bool_decide_true|]. split; [done|]. apply known_fold, kn_own.
Qed.

(** C60, what holds. As long as nobody makes up assignments: each member has exactly the position that the owner's table
    gives it, with the secret of that unit in the current generation; and an assignment on the wire has an effect on a
    member only if the owner made it for that member. Missing: assignments of others are not recognised, and neither are
    old ones (C85). *)
Theorem C60_partial pol ranks ownleaf root flat os cid st :
  let w := hrun (hfounded pol ranks ownleaf root flat) os in
  let b := book_after ranks root flat os in
  hw_members w !! cid = Some st →
  hs_self hsym st = (λ p, mk_hmember p (unit_secret (bk_gen b) p) pol) <$> bk_ranks b !! cid ∧
  ∀ a st', WAssign a ∈ hw_wire w → apply_assignment hsym st a = Some st' →
    ∃ n g p, bk_joined b !! cid = Some n ∧ (n, g, p) ∈ bk_grants b ∧
      hs_self hsym st' = Some (mk_hmember p (unit_secret g p) pol) ∧ hs_mode hsym st' = Command pol.
Proof.
  intros w b Hm. destruct (hrun_ok pol ranks ownleaf root flat os) as [HI _]. fold (book_after ranks root flat os) w b in HI.
  rewrite (hw_lookup _ _ _ _ HI) in Hm. apply fmap_Some in Hm as (n & Hn & ->). split; [done|].
  intros a st' Ha Hap. apply (hw_a _ _ _ HI) in Ha as (n' & g & p & Hg & ->).
  unfold apply_assignment in Hap. cbn in Hap. case_bool_decide as E; [|done]. injection E as <-. injection Hap as <-.
  by exists n, g, p.
Qed.
(** Nobody but the owner can promote or demote, whatever state it is in. *)
Theorem C60_owner_only_partial H st leaf_of cid p r seg root flat rs :
  hs_owner H st = false →
  promote H st leaf_of cid p r = (st, None) ∧ demote H st leaf_of cid seg root flat rs = (st, None).
Proof. intros Ho. unfold promote, demote. by rewrite Ho. Qed.
(** Account 3's position in the example above, before and after the demotion. *)
Example C60_example :
  let at_ k := hw_members (hrun (hfounded SuperiorOnly ex_ranks 100 0 0) (take k ex_ops)) !! 3 in
  (hs_self hsym <$> at_ 7%nat) = Some (Some (mk_hmember [seg 1; seg 2] (HChild (HChild (HRoot 0) (seg 1)) (seg 2)) SuperiorOnly)) ∧
  (hs_self hsym <$> at_ 9%nat) = Some (Some (mk_hmember [seg 1; seg 2] (HChild (HChild (HRoot 1) (seg 1)) (seg 2)) SuperiorOnly)).
Proof. by vm_compute. Qed.

(** C85 (false). "What the owner has assigned last counts: delivering an old assignment again changes nothing."
    Account 2 (unit /1) is demoted, all positions get new secrets. The relay delivers account 3's first assignment
    again: account 3 falls back to the old secret, and account 2, demoted, reads what 3 sends. *)
Theorem C85_refuted :
  let before := hrun (hfounded SuperiorOnly ex_ranks 100 0 0) [HJoin 2 102; HJoin 3 103] in
  let after := hrun before [HDemote 2 (seg 77) 1 1] in
  ∃ old st2 st3 st3' e, WAssign old ∈ hw_wire before ∧
    hw_members before !! 2 = Some st2 ∧ hw_members after !! 3 = Some st3 ∧ apply_assignment hsym st3 old = Some st3' ∧
    hs_self hsym st3' ≠ hs_self hsym st3 ∧
    encrypt_dhe hsym st3' (HKey 1) tt [7; 8] = Some e ∧
    decrypt_dhe hsym st2 e = Some [7; 8] ∧ decrypt_dhe hsym (hw_owner after) e = None.
Proof.
  intros before after.
  exists (ABox (LeafPk (HLeaf 103)) (mk_hmember [seg 1; seg 2] (HChild (HChild (HRoot 0) (seg 1)) (seg 2)) SuperiorOnly)).
  exists (mk_hstate hsym false (HLeaf 102) (Command SuperiorOnly) (Some (mk_hmember [seg 1] (HChild (HRoot 0) (seg 1)) SuperiorOnly)) ∅ (Some (HGroup 0))).
  exists (mk_hstate hsym false (HLeaf 103) (Command SuperiorOnly)
    (Some (mk_hmember [seg 1; seg 2] (HChild (HChild (HRoot 1) (seg 1)) (seg 2)) SuperiorOnly)) ∅ (Some (HGroup 1))).
  eexists _, _. split; [by vm_compute; left|]. split; [by vm_compute|]. split; [by vm_compute|]. split; [by vm_compute|].
  split; [by vm_compute|]. split; [by vm_compute|]. split; by vm_compute.
Qed.
(** C85, what holds: delivering the newest assignment again changes nothing. Missing: older ones. *)
Theorem C85_partial pol ranks ownleaf root flat os cid st n p :
  let w := hrun (hfounded pol ranks ownleaf root flat) os in
  let b := book_after ranks root flat os in
  hw_members w !! cid = Some st → bk_joined b !! cid = Some n → bk_ranks b !! cid = Some p →
  ∀ a, aopen hsym (HLeaf n) a = Some (mk_hmember p (unit_secret (bk_gen b) p) pol) → apply_assignment hsym st a = Some st.
Proof.
  intros w b Hm Hn Hp a Ha. destruct (hrun_ok pol ranks ownleaf root flat os) as [HI _]. fold (book_after ranks root flat os) w b in HI.
  rewrite (hw_lookup _ _ _ _ HI), Hn in Hm. injection Hm as <-. unfold apply_assignment. cbn [hs_leaf mstate]. rewrite Ha.
  unfold mstate. rewrite Hp. done.
Qed.

Print Assumptions C25_superiors_read.
Print Assumptions C25_units_exist.
Print Assumptions C25_others.
Print Assumptions C25_unit_secret.
Print Assumptions C25_message_secret.
Print Assumptions C25_demoted_reads_nothing.
Print Assumptions C59_refuted.
Print Assumptions C60_refuted.
Print Assumptions C59_partial.
Print Assumptions C59_next_demotion_partial.
Print Assumptions C60_owner_refuted.
Print Assumptions C60_partial.
Print Assumptions C85_refuted.
Print Assumptions C85_partial.
Print Assumptions C60_owner_only_partial.
