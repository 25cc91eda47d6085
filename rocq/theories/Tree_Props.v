(** C19, C20, C21, C22, C24: the group key agreement. *)
From Coq Require Import ZifyBool ZifyNat ZifyN.
From stdpp Require Import prelude gmap.
From Verif Require Import Bytes Tree_Model Tree_Spec TreeSym_Spec TreeMath_Proofs TreePath_Proofs TreeBal_Proofs Tree_Proofs
  TreeUpd_Proofs TreeApply_Proofs TreeWorld_Proofs TreeMsg_Proofs TreeSym_Proofs.
Local Open Scope N_scope.

(** C19. For every number n of slots there is a left-balanced tree, and in it, for every slot,
    the direct path computed by the code is the list of the (numbers of the) ancestors bottom-up and
    the copath lists their other children. *)
Theorem C19_paths_are_ancestors n t i : LB 0 n t → i < n →
  ∃ p dp cp, up t i p ∧ direct_path i n = Some dp ∧ copath i n = Some cp ∧
    Forall2 (numbered t) p.*1 dp ∧ Forall2 (numbered t) p.*2 cp.
Proof. apply tree_paths. Qed.

(** The slot and the subtrees of the copath nodes partition the slots 0, …, n-1. *)
Theorem C19_copath_partitions n t i p : LB 0 n t → up t i p →
  leaves t ≡ₚ i :: concat (leaves <$> p.*2) ∧ NoDup (leaves t) ∧ ∀ u, u ∈ leaves t ↔ u < n.
Proof.
  intros Ht Hu. pose proof (LB_NoDup _ _ _ Ht) as HN. split; [by apply up_partition|]. split; [done|].
  intros u. rewrite (LB_leaves _ _ _ Ht). lia.
Qed.

Theorem C19_tree_exists n : 0 < n → ∃ t, LB 0 n t.
Proof. intros Hn. by apply LB_exists. Qed.

(** Slot 3 of 6: ancestors 5, 3, 7; the other children are slot 2 (node 4), the node of slots 0 and 1
    (node 1), and the node of slots 4 and 5 (node 9). *)
Example C19_example :
  direct_path 3 6 = Some [5; 3; 7] ∧ copath 3 6 = Some [4; 1; 9] ∧
  up (BNode (BNode (BNode (BLeaf 0) (BLeaf 1)) (BNode (BLeaf 2) (BLeaf 3))) (BNode (BLeaf 4) (BLeaf 5))) 3
    [(BNode (BLeaf 2) (BLeaf 3), BLeaf 2);
     (BNode (BNode (BLeaf 0) (BLeaf 1)) (BNode (BLeaf 2) (BLeaf 3)), BNode (BLeaf 0) (BLeaf 1));
     (BNode (BNode (BNode (BLeaf 0) (BLeaf 1)) (BNode (BLeaf 2) (BLeaf 3))) (BNode (BLeaf 4) (BLeaf 5)),
      BNode (BLeaf 4) (BLeaf 5))].
Proof.
  split_and!; [reflexivity|reflexivity|].
  apply (up_left _ _ 3 [(_, _); (_, _)]), (up_right _ _ 3 [(_, _)]), (up_right _ _ 3 []), up_here.
Qed.
(** slot 4 of 5 hangs directly below the root *)
Example C19_example_odd : direct_path 4 5 = Some [7] ∧ copath 4 5 = Some [3] ∧ direct_path 0 1 = Some [].
Proof. split_and!; reflexivity. Qed.

Lemma under_below x i : under x i ↔ below x i.
Proof.
  split.
  - intros (k & j & -> & H). apply (below_nd_range k j i). exact H.
  - intros H. destruct (nd_exists x) as [j Hx]. exists (level x), j. split; [exact Hx|].
    apply below_nd_range. rewrite <- Hx. exact H.
Qed.

(** C20. In every group reached by any commits, for every node of the tree: the resolution is
    duplicate-free; every member in the subtree of the node holds the secret of exactly one listed key;
    members outside the subtree hold none. *)
Theorem C20_resolution_reaches_members P : laws P → ∀ cid s os ms g0 x,
  run P (founded P cid s) os = Some ms → g0 ∈ ms → x < N.of_nat (length (g_tree P g0)) →
  ∃ rs, resolution P (g_tree P g0) x = Some rs ∧ NoDup rs ∧
    ∀ g, g ∈ ms →
      (under x (g_leaf P g) → ∃ r, (r ∈ rs ∧ holds P g r) ∧ ∀ r', r' ∈ rs → holds P g r' → r' = r) ∧
      (¬ under x (g_leaf P g) → ∀ r, r ∈ rs → ¬ holds P g r).
Proof.
  intros L cid s os ms g0 x Hr Hg0 Hx.
  destruct (run_ok P L os _ (founded_ok P cid s)) as (ms' & E & HW). rewrite Hr in E. injection E as <-.
  destruct (WInv_view P ms HW) as (t & e & sec & h & HT & Ha & Hm & Hl & Hnd).
  rewrite Forall_forall in Ha, Hm. assert (Et : ∀ g, g ∈ ms → g_tree P g = t) by (intros g Hg; by destruct (Ha g Hg)).
  rewrite (Et _ Hg0) in Hx |- *.
  assert (Hx' : x < node_width (num_leaves P t)) by (by apply TInv_lt).
  destruct (resolution_ok P t x HT Hx') as (rs & E & R). exists rs. split; [done|]. split; [apply R|].
  intros g Hg. pose proof (Hm g Hg) as HH. cbv beta in HH.
  assert (Hlg : live P t (g_leaf P g)) by (apply Hl; by apply elem_of_list_fmap_1).
  assert (Hholds : ∀ r, r ∈ rs → holds P g r ↔ covers P t r (g_leaf P g)).
  { intros r Hin. destruct (ro_in _ _ _ _ R r Hin) as [(nd & pk & G1 & G2) _].
    pose proof (held_covers P t _ _ r nd pk HT HH G1 G2) as Hc. unfold holds. rewrite (Et g Hg). split.
    - intros (s' & nd' & H1 & _ & _). rewrite H1 in Hc. apply Hc.
    - intros Hcov. destruct (g_own P g !! r) as [s'|] eqn:Es; [|done]. exists s', nd. split_and!; [done|done|].
      destruct Hc as [_ ->]. done. }
  rewrite under_below. split.
  - intros Hb. destruct (ro_cover _ _ _ _ R _ Hlg Hb) as (r & H1 & H2). exists r. split; [split; [done|by apply Hholds]|].
    intros r' H3 H4. eapply (ro_unique _ _ _ _ R); [done|done|by apply Hholds|done].
  - intros Hb r Hin Hh. apply Hb. apply (Hholds r Hin) in Hh. apply (ro_in _ _ _ _ R r Hin). by eapply covers_below.
Qed.

(** With symbolic cryptography: whoever can compute the secret of a key of the tree (from all messages
    and the states ever held by a set of members) includes a current member in the subtree of that key.
    In particular former members, even together, know none of the keys a path secret is sealed to. *)
Theorem C20_keys_known_only_below cid f0 os ns bad mo n g x rs r nd s :
  honest f0 os ns → mo ∈ history cid f0 os → (n, g) ∈ at_members mo →
  resolution sym (g_tree sym g) x = Some rs → r ∈ rs → get sym (g_tree sym g) r = Some nd → kem_public sym nd = Some (Pk s) →
  known (history cid f0 os) bad (f0 :: ns) s →
  ∃ k g', (k, g') ∈ at_members mo ∧ bad k ∧ under r (g_leaf sym g').
Proof.
  intros Hh Hmo Hg _ _ Hx Hs Hk. destruct (key_secrecy cid f0 os ns bad mo n g r nd s Hh Hmo Hg Hx Hs Hk) as (k & g' & H1 & H2 & H3).
  exists k, g'. split_and!; [done|done|by apply under_below].
Qed.

(** C21. Any history of commits by any current members, with any random numbers: nobody fails, all members
    have the same tree, epoch, transcript and secrets and different slots, and the occupied slots are those
    of the members. *)
Theorem C21_members_agree P : laws P → ∀ cid s os, ∃ ms, run P (founded P cid s) os = Some ms ∧ agreement P ms ∧
  ∀ g, g ∈ ms → ∀ i, live P (g_tree P g) i ↔ ∃ g', g' ∈ ms ∧ g_leaf P g' = i.
Proof.
  intros L cid s os. destruct (run_ok P L os _ (founded_ok P cid s)) as (ms & E & HW). exists ms. split; [done|].
  destruct (WInv_view P ms HW) as (t & e & sec & h & HT & Ha & Hm & Hl & Hnd). rewrite Forall_forall in Ha.
  split; [split; [|done]|].
  - intros g1 g2 H1 H2. destruct (Ha _ H1) as (? & ? & ? & ?), (Ha _ H2) as (? & ? & ? & ?). split_and!; congruence.
  - intros g Hg i. destruct (Ha _ Hg) as (-> & _). rewrite Hl, elem_of_list_fmap. split; intros (g' & H1 & H2); eauto.
Qed.

(** What one commit does: a re-key keeps the members, an add puts the new account into one new slot, a
    removal removes exactly the named slot; every commit that is made moves all members to the next epoch. *)
Theorem C21_commit_effect P : laws P → ∀ cid s os ms o, run P (founded P cid s) os = Some ms →
  ∃ ms', step P ms o = Some ms' ∧ slots_after P ms ms' o ∧
    (effective P ms o → ∀ g g', g ∈ ms → g' ∈ ms' → g_epoch P g' = g_epoch P g + 1) ∧
    (¬ effective P ms o → ms' = ms).
Proof.
  intros L cid s os ms o Hr. destruct (run_ok P L os _ (founded_ok P cid s)) as (ms1 & E & HW). rewrite Hr in E. injection E as <-.
  destruct (step_ok P L ms o HW) as (ms' & Hs & HW' & Hsl). exists ms'. split; [done|]. split; [done|].
  destruct (step_fresh P _ _ _ Hs) as [[-> Hne]|(Hz & g0 & g0' & Hg0 & Hg0' & He)].
  - split; [done|by intros _].
  - split.
    + intros _ g g' Hg Hg'. destruct (WInv_epoch _ _ _ _ HW Hg Hg0) as [E1 _].
      destruct (WInv_epoch _ _ _ _ HW' Hg' Hg0') as [E2 _]. lia.
    + intros Hne. exfalso. apply Hne. clear - Hs He Hg0 Hg0' HW.
      assert (Hms : ms' ≠ ms). { intros ->. destruct (WInv_epoch _ _ _ _ HW Hg0 Hg0') as [E _]. lia. }
      destruct o as [who f rs|who f rs c j wr|who f rs target]; cbn [step effective] in *;
        (destruct (ms !! who) as [g|] eqn:Eg; [|congruence]); [eauto|eauto|].
      exists g. split; [done|]. destruct (_ || _) eqn:Eb; [congruence|]. apply orb_false_iff in Eb as [E1 E2].
      apply bool_decide_eq_false in E1. apply N.leb_gt in E2. done.
Qed.

(** so every member can read what every member writes *)
Theorem C21_members_read_each_other P : laws P → ∀ cid s os ms g1 g2 m, run P (founded P cid s) os = Some ms →
  g1 ∈ ms → g2 ∈ ms → decrypt_message P g2 (encrypt_message P g1 m).2 = Some m.
Proof.
  intros L cid s os ms g1 g2 m Hr H1 H2. destruct (C21_members_agree P L cid s os) as (ms' & E & [Ha _] & _).
  rewrite Hr in E. injection E as <-. destruct (Ha g1 g2 H1 H2) as (_ & E1 & _ & E2).
  unfold decrypt_message. cbn [encrypt_message snd am_epoch am_sender am_gen am_body].
  rewrite E1, N.eqb_refl. cbn [negb]. rewrite E2. apply (law_app P L).
Qed.

(** Non-trivial history for the examples: a founder, three joiners added by different members, a re-key,
    the removal of the member in slot 1, and a new member who gets that slot. *)
Definition ex_rs : nat → nat → rnd sym := λ _ _, tt.
Definition ex_ops : list (op sym) :=
  [OpAdd sym 0 (TFresh 11) ex_rs 71 (TFresh 2) tt;
   OpAdd sym 1 (TFresh 12) ex_rs 72 (TFresh 3) tt;
   OpAdd sym 2 (TFresh 13) ex_rs 73 (TFresh 4) tt;
   OpUpdate sym 3 (TFresh 14) ex_rs;
   OpRemove sym 0 (TFresh 15) ex_rs 1;
   OpAdd sym 1 (TFresh 16) ex_rs 74 (TFresh 5) tt].
Definition ex_view (mo : moment) : list (N * N * N) :=
  (λ p, (p.1, g_leaf sym p.2, g_epoch sym p.2)) <$> at_members mo.

Example C21_example :
  ex_view <$> history 70 1 ex_ops =
  [[(1, 0, 0)];
   [(1, 0, 1); (2, 1, 1)];
   [(2, 1, 2); (3, 2, 2); (1, 0, 2)];
   [(1, 0, 3); (4, 3, 3); (2, 1, 3); (3, 2, 3)];
   [(3, 2, 4); (1, 0, 4); (4, 3, 4); (2, 1, 4)];
   [(3, 2, 5); (1, 0, 5); (4, 3, 5)];
   [(1, 0, 6); (5, 1, 6); (3, 2, 6); (4, 3, 6)]] ∧
  match run sym (founded sym 70 (TFresh 1)) ex_ops with
  | Some (g :: rest) => Forall (λ k, es_encryption sym (g_secrets sym k) = es_encryption sym (g_secrets sym g)) rest
  | _ => False
  end.
Proof. split; [vm_compute; reflexivity|]. vm_compute. repeat constructor. Qed.

(** in the tree before the removal, the resolution of the left half is its (re-keyed) node *)
Example C20_example :
  match run sym (founded sym 70 (TFresh 1)) (take 3 ex_ops), run sym (founded sym 70 (TFresh 1)) (take 5 ex_ops) with
  | Some (g :: _), Some (g' :: _) => resolution sym (g_tree sym g) 1 = Some [1] ∧ resolution sym (g_tree sym g) 5 = Some [4; 6] ∧
     resolution sym (g_tree sym g') 1 = Some [0] ∧ resolution sym (g_tree sym g') 3 = Some [3]
  | _, _ => False
  end.
Proof. vm_compute. split_and!; reflexivity. Qed.

(** C22. After a member has been removed, its name is in no later group, and from every state it ever held
    and all messages of the whole history it cannot compute any secret of any later epoch. *)
Theorem C22_removed_member_locked_out cid f0 os1 who f rs target os2 ns mo n g c k mo' n' g' s :
  let os := os1 ++ OpRemove sym who f rs target :: os2 in
  honest f0 os ns → history cid f0 os !! length os1 = Some mo →
  (n, g) ∈ at_members mo → g_leaf sym g = target →
  at_members mo !! who = Some c → g_leaf sym c.2 ≠ target →
  (length os1 < k)%nat → history cid f0 os !! k = Some mo' → (n', g') ∈ at_members mo' → s ∈ live_secrets g' →
  n ∉ (at_members mo').*1 ∧ ¬ known (history cid f0 os) (λ m, m = n) (f0 :: ns) s.
Proof.
  intros os Hh Hl Hg Ht Hc Hne Hk Hk' Hg' Hs.
  assert (Hlt : target < num_leaves sym (g_tree sym c.2)).
  { (* all members of a moment see the same tree, in which the slot is occupied *)
    clear Hk Hk' Hg' Hs.
    destruct (moments_view cid f0 os1 (OpRemove sym who f rs target :: os2) ns mo Hh Hl) as (t & e & sec & h & HT & Ha & _ & Hlv & _).
    rewrite Forall_forall in Ha. destruct (Ha c.2) as (-> & _).
    { apply elem_of_list_fmap_1. by eapply elem_of_list_lookup_2. }
    apply live_lt; [done|]. apply Hlv. rewrite <- Ht. apply elem_of_list_fmap_1. apply elem_of_list_fmap. by exists (n, g). }
  pose proof (removed_gone cid f0 os1 who f rs target os2 ns mo n g c k mo' Hh Hl Hg Ht Hc Hne Hlt Hk Hk') as Hgone.
  split; [exact Hgone|]. intros Hkn. apply Hgone.
  destruct (secrecy cid f0 os ns _ mo' n' g' s Hh (elem_of_list_lookup_2 _ _ _ Hk') Hg' Hs Hkn) as (m & g2 & H1 & ->).
  apply elem_of_list_fmap. by exists (n, g2).
Qed.

(** More generally: any set of members, past or future, can compute the secrets of an epoch together only if
    one of them is in the group in that epoch. *)
Theorem C22_only_current_members cid f0 os ns bad mo n g s :
  honest f0 os ns → mo ∈ history cid f0 os → (n, g) ∈ at_members mo → s ∈ live_secrets g →
  known (history cid f0 os) bad (f0 :: ns) s → ∃ k g', (k, g') ∈ at_members mo ∧ bad k.
Proof. apply secrecy. Qed.

(** and no history stops early *)
Theorem C22_histories_complete cid f0 os ns : honest f0 os ns → length (history cid f0 os) = S (length os).
Proof. intros H. by destruct (sym_history cid f0 os ns H) as (A & _ & _ & _ & E). Qed.

Example C22_example_honest : honest 1 ex_ops [11; 2; 12; 3; 13; 4; 14; 15; 16; 5].
Proof. split; [reflexivity|]. apply (bool_decide_unpack _). vm_compute. exact I. Qed.
(** member 2 knew the secrets of the epoch before its removal, but not those of the two epochs after it *)
Example C22_example :
  (∃ mo g, history 70 1 ex_ops !! 4%nat = Some mo ∧ (2, g) ∈ at_members mo ∧
    known (history 70 1 ex_ops) (λ m, m = 2) [1; 11; 2; 12; 3; 13; 4; 14; 15; 16; 5] (es_encryption sym (g_secrets sym g))) ∧
  ∀ k mo n g, (4 < k)%nat → history 70 1 ex_ops !! k = Some mo → (n, g) ∈ at_members mo →
    ¬ known (history 70 1 ex_ops) (λ m, m = 2) [1; 11; 2; 12; 3; 13; 4; 14; 15; 16; 5] (es_encryption sym (g_secrets sym g)).
Proof.
  assert (Hex : ∃ mo g c, history 70 1 ex_ops !! 4%nat = Some mo ∧ (2, g) ∈ at_members mo ∧ g_leaf sym g = 1 ∧
    at_members mo !! 0%nat = Some c ∧ g_leaf sym c.2 ≠ 1).
  { eexists _, _, _. split; [vm_compute; reflexivity|]. split; [cbn; do 3 right; left|]. split; [reflexivity|].
    split; [reflexivity|]. done. }
  destruct Hex as (mo & g & c & H1 & H2 & H3 & H4 & H5). split.
  - exists mo, g. split; [done|]. split; [done|]. eapply k_state; [by eapply elem_of_list_lookup_2|exact H2|done|].
    unfold state_secrets. apply elem_of_app. right. right. by left.
  - intros k mo' n' g' Hk Hk' Hg'.
    refine (proj2 (C22_removed_member_locked_out 70 1 (take 4 ex_ops) 0 (TFresh 15) ex_rs 1 (drop 5 ex_ops)
      [11; 2; 12; 3; 13; 4; 14; 15; 16; 5] mo 2 g c k mo' n' g' _ C22_example_honest H1 H2 H3 H4 H5 Hk Hk' Hg' _)).
    right. by left.
Qed.

(** C24, for senders who send at most 2^32 messages in an epoch: two messages of the same epoch use the
    same key and nonce (which are a hash of the same bytes) only if they are the same message.
    Missing: without the bound it is false, see below. *)
Theorem C24_one_key_per_message_partial P : laws P → ∀ cid s hs st,
  hrun P (founded P cid s, []) hs = Some st →
  (∀ e i, N.of_nat (length (sent_by e i st.2)) <= 2 ^ 32) →
  ∀ sec j k a b ma mb, st.2 !! j = Some (a, ma) → st.2 !! k = Some (b, mb) → am_epoch a = am_epoch b →
    am_sender a < 2 ^ 32 → am_sender b < 2 ^ 32 →
    message_key_input sec (am_sender a) (am_gen a) = message_key_input sec (am_sender b) (am_gen b) → j = k.
Proof.
  intros L cid s hs st Hr Hc sec j k a b ma mb Hj Hk Ee Ha Hb E.
  destruct (LInv_run P L hs (founded P cid s, []) (LInv_founded P cid s)) as (st' & E' & HI). rewrite Hr in E'. injection E' as <-.
  assert (Hgen : ∀ q a m, st.2 !! q = Some (a, m) → am_gen a < 2 ^ 32).
  { intros q x m Hq. pose proof (li_gens P _ _ HI (am_epoch x) (am_sender x)) as Hg.
    assert (Hin : am_gen x ∈ gens (am_epoch x) (am_sender x) st.2).
    { unfold gens, sent_by. apply elem_of_list_fmap_1. apply elem_of_list_filter. split; [done|].
      apply elem_of_list_fmap. exists (x, m). split; [done|by eapply elem_of_list_lookup_2]. }
    rewrite Hg in Hin. apply elem_of_list_fmap in Hin as (u & -> & _). apply N.mod_lt. by apply N.pow_nonzero. }
  destruct (message_key_input_inj sec sec _ _ _ _ eq_refl Ha Hb (Hgen _ _ _ Hj) (Hgen _ _ _ Hk) E) as (_ & E1 & E2).
  eapply (LInv_nodup P st.1 st.2 HI Hc j k a b); try done.
  - by rewrite list_lookup_fmap, Hj.
  - by rewrite list_lookup_fmap, Hk.
Qed.

(** C24 is false in general: the message counter wraps around, and the message after 2^32 others in the same
    epoch is encrypted with the key and nonce of the first one. *)
Theorem C24_one_key_per_message_refuted P cid s : ∃ hs st j k a b ma mb,
  hrun P (founded P cid s, []) hs = Some st ∧ st.2 !! j = Some (a, ma) ∧ st.2 !! k = Some (b, mb) ∧ j ≠ k ∧ ma ≠ mb ∧
  am_epoch a = am_epoch b ∧
  ∀ sec, message_key_input sec (am_sender a) (am_gen a) = message_key_input sec (am_sender b) (am_gen b).
Proof.
  assert (HK : ∃ K, 0 < K ∧ K mod 2 ^ 32 = 0) by (exists (2 ^ 32); split; reflexivity).
  destruct HK as (K & Hp & HK).
  set (ps := replicate (N.to_nat K) [1] ++ [[2]]).
  destruct (send_alone P ps (create P (key_package P cid s) s) []) as (g' & E).
  { reflexivity. }
  eexists _, _, 0%nat, (N.to_nat K), _, _, [1], [2]. split; [exact E|]. cbn [snd app].
  assert (E0 : ps !! 0%nat = Some [1]).
  { unfold ps. rewrite lookup_app_l by (rewrite replicate_length; lia). apply lookup_replicate_2. lia. }
  assert (E1 : ps !! N.to_nat K = Some [2]).
  { unfold ps. rewrite lookup_app_r by (by rewrite replicate_length). rewrite replicate_length, Nat.sub_diag. done. }
  clearbody ps. rewrite !list_lookup_imap, E0, E1. cbn [fmap option_fmap option_map].
  split; [reflexivity|]. split; [reflexivity|]. split; [lia|]. split; [done|]. split; [reflexivity|].
  intros sec. cbn [am_sender am_gen]. f_equal. cbn [g_send create bootstrap]. rewrite !N.add_0_l, N2Nat.id. symmetry. exact HK.
Qed.

(** A member opens every message of its own epoch to exactly the bytes sent, and no message of another epoch. *)
Theorem C24_opened_only_in_its_epoch P : laws P → ∀ cid s hs st,
  hrun P (founded P cid s, []) hs = Some st → ∀ g a m, g ∈ st.1 → (a, m) ∈ st.2 →
  decrypt_message P g a = if am_epoch a =? g_epoch P g then Some m else None.
Proof.
  intros L cid s hs st Hr g a m Hg Ha.
  destruct (LInv_run P L hs (founded P cid s, []) (LInv_founded P cid s)) as (st' & E' & HI). rewrite Hr in E'. injection E' as <-.
  unfold decrypt_message. destruct (N.eqb_spec (am_epoch a) (g_epoch P g)) as [E|E]; cbn [negb]; [|done].
  rewrite (li_body P _ _ HI g a m Hg Ha E). apply (law_app P L).
Qed.

(** two members send in epoch 1, one of them again in epoch 2 *)
Example C24_example :
  match hrun sym (founded sym 70 (TFresh 1), [])
    [HCommit sym (OpAdd sym 0 (TFresh 11) ex_rs 71 (TFresh 2) tt);
     HSend sym 0 [1]; HSend sym 0 [2]; HSend sym 1 [3];
     HCommit sym (OpUpdate sym 1 (TFresh 12) ex_rs); HSend sym 0 [4]] with
  | Some (ms, log) => (λ p, (am_epoch p.1, am_sender p.1, am_gen p.1)) <$> log = [(1, 0, 0); (1, 0, 1); (1, 1, 0); (2, 1, 0)] ∧
      (λ g, (λ p, decrypt_message sym g p.1) <$> log) <$> ms = [[None; None; None; Some [4]]; [None; None; None; Some [4]]]
  | None => False
  end.
Proof. vm_compute. split; reflexivity. Qed.

Print Assumptions C19_paths_are_ancestors.
Print Assumptions C19_copath_partitions.
Print Assumptions C19_tree_exists.
Print Assumptions C20_resolution_reaches_members.
Print Assumptions C20_keys_known_only_below.
Print Assumptions C21_members_agree.
Print Assumptions C21_commit_effect.
Print Assumptions C21_members_read_each_other.
Print Assumptions C22_removed_member_locked_out.
Print Assumptions C22_only_current_members.
Print Assumptions C22_histories_complete.
Print Assumptions C24_one_key_per_message_partial.
Print Assumptions C24_one_key_per_message_refuted.
Print Assumptions C24_opened_only_in_its_epoch.
