From Coq Require Import ZifyBool ZifyNat ZifyN.
From stdpp Require Import prelude gmap.
From Verif Require Import Transfer_Model Transfer_Spec.
Local Open Scope N_scope.

(** ** Pieces of a file *)
Lemma pieces_concat f : ∀ m d, (0 < m)%nat → (length d <= f)%nat → concat (pieces f m d) = d.
Proof.
  induction f as [|f IH]; intros m d Hm Hl; cbn [pieces].
  - destruct d; [done|cbn in Hl; lia].
  - destruct d as [|a d]; [done|]. cbn [concat]. rewrite IH; [apply take_drop|done|].
    rewrite drop_length. cbn [length] in *. lia.
Qed.
Lemma split_concat m d : (0 < m)%nat → concat (split m d) = d.
Proof. intros Hm. by apply pieces_concat. Qed.
Lemma pieces_nonempty f : ∀ m d p, (0 < m)%nat → p ∈ pieces f m d → p ≠ [].
Proof.
  induction f as [|f IH]; intros m d p Hm; cbn [pieces]; [by intros ?%elem_of_nil|].
  destruct d as [|a d]; [by intros ?%elem_of_nil|]. intros [->|H]%elem_of_cons; [|by eapply IH].
  destruct m; [lia|done].
Qed.
Lemma split_nonempty m d p : (0 < m)%nat → p ∈ split m d → p ≠ [].
Proof. apply pieces_nonempty. Qed.
Lemma split_one m d : d ≠ [] → (length d <= m)%nat → split m d = [d].
Proof.
  intros Hd Hl. unfold split. destruct d as [|a d]; [done|]. cbn [length pieces].
  rewrite take_ge by done. rewrite drop_ge by done. by destruct (length d).
Qed.

(** ** Keys of messages *)
Definition key : Type := option (N * option nat).
Definition skey (m : smsg) : key :=
  match m with FileHeader => None | GroupHeader g _ => Some (g, None) | Wave g w _ => Some (g, Some w) end.
Definition rkey (m : rmsg) : option key :=
  match m with
  | HeaderAck _ => Some None | GroupHeaderAck g => Some (Some (g, None)) | WaveAck g w => Some (Some (g, Some w))
  | FileError _ => None
  end.
Notation skeys l := (skey <$> l).
Notation rkeys l := (omap rkey l).

Section Proofs.
  Context (c : cfg) (Hwf : wf c).

  Definition block (rel : nat) : list smsg :=
    GroupHeader (gid c rel) (match t_groups c !! rel with Some ws => length ws | None => 0%nat end) :: group_msgs c rel.
  Definition full (k : nat) : list smsg := FileHeader :: concat (block <$> seq 0 k).
  Definition wave_msg (rel : nat) (ws : group) (w : nat) : smsg :=
    Wave (gid c rel) w (match ws !! w with Some p => p.2 | None => [] end).

  Lemma full_S k : full (S k) = full k ++ block k.
  Proof using. unfold full. rewrite seq_S, fmap_app, concat_app. cbn. by rewrite app_nil_r. Qed.
  Lemma group_msgs_eq rel ws : t_groups c !! rel = Some ws → group_msgs c rel = wave_msg rel ws <$> t_order c rel.
  Proof using. intros E. unfold group_msgs. by rewrite E. Qed.
  Lemma full_prefix k n : (k <= n)%nat → full k `prefix_of` full n.
  Proof using.
    induction 1 as [|n _ IH]; [done|]. rewrite full_S. by apply prefix_app_r.
  Qed.
  Lemma gid_inj a b : gid c a = gid c b → a = b.
  Proof using. unfold gid. lia. Qed.
  Lemma full_keys k x : x ∈ skeys (full k) → x = None ∨ ∃ rel o, x = Some (gid c rel, o) ∧ (rel < k)%nat.
  Proof using.
    induction k as [|k IH].
    - cbn. intros ->%elem_of_list_singleton. by left.
    - rewrite full_S, fmap_app, elem_of_app. intros [H|H].
      + destruct (IH H) as [?|(rel & o & ? & ?)]; [by left|]. right. exists rel, o. split; [done|lia].
      + right. cbn [block fmap list_fmap skey] in H. apply elem_of_cons in H as [->|H].
        * exists k, None. split; [done|lia].
        * unfold group_msgs in H. destruct (t_groups c !! k) as [ws|]; [|by apply elem_of_nil in H].
          rewrite <- list_fmap_compose in H. apply elem_of_list_fmap in H as (w & -> & _). exists k, (Some w). split; [done|lia].
  Qed.
  Lemma block_keys_nodup k : (k < total c)%nat → NoDup (skeys (block k)).
  Proof using Hwf.
    intros Hk. destruct (lookup_lt_is_Some_2 _ _ Hk) as [ws E]. destruct (Hwf _ _ E) as (_ & _ & Hp).
    unfold block. cbn [fmap list_fmap skey]. constructor.
    - unfold group_msgs. rewrite E, <- list_fmap_compose. intros (w & ? & _)%elem_of_list_fmap. done.
    - rewrite (group_msgs_eq _ _ E), <- list_fmap_compose. apply NoDup_fmap_2.
      + intros a b. cbn. congruence.
      + rewrite Hp. apply NoDup_seq.
  Qed.
  Lemma full_keys_nodup k : (k <= total c)%nat → NoDup (skeys (full k)).
  Proof using Hwf.
    induction k as [|k IH]; intros Hk.
    - cbn. apply NoDup_singleton.
    - rewrite full_S, fmap_app. apply NoDup_app. split; [apply IH; lia|]. split; [|apply block_keys_nodup; lia].
      intros x H1 H2. assert (H3 : ∃ o, x = Some (gid c k, o)).
      { cbn [block fmap list_fmap skey] in H2. apply elem_of_cons in H2 as [->|H2]; [by eexists|].
        unfold group_msgs in H2. destruct (t_groups c !! k) as [ws|]; [|by apply elem_of_nil in H2].
        rewrite <- list_fmap_compose in H2. apply elem_of_list_fmap in H2 as (w & -> & _). by eexists. }
      destruct H3 as [o ->]. destruct (full_keys _ _ H1) as [?|(rel & o' & [= E _] & ?)]; [done|]. apply gid_inj in E. lia.
  Qed.
  Lemma prefix_next {A} (p : list A) (a : A) (rest : list A) (l : list A) :
    l = p ++ a :: rest → ∀ h b x, h `prefix_of` l → take b h = p → h !! b = Some x → x = a ∧ take (S b) h = p ++ [a].
  Proof using.
    intros -> h b x [t Ht] Hp Hx.
    assert (Hb : length p = b) by (rewrite <- Hp, take_length_le; [done|]; apply lookup_lt_Some in Hx; lia).
    assert (x = a) as ->.
    { assert (E : (h ++ t) !! b = Some x) by (rewrite lookup_app_l; [done|by eapply lookup_lt_Some]).
      rewrite <- Ht, <- Hb, list_lookup_middle in E by done. congruence. }
    split; [done|]. by rewrite (take_S_r _ _ _ Hx), Hp.
  Qed.

  (** ** Sums of packets *)
  Fixpoint asum (P : nat → bool) (i : nat) (ws : group) : N :=
    match ws with [] => 0 | p :: r => (if P i then p.1 else 0) + asum P (S i) r end.
  Lemma asum_ext P P' ws : ∀ i, (∀ w, (i <= w < i + length ws)%nat → P w = P' w) → asum P i ws = asum P' i ws.
  Proof using.
    induction ws as [|p r IH]; intros i H; [done|]. cbn [asum length] in *. rewrite (H i) by lia.
    rewrite (IH (S i)); [done|]. intros w Hw. apply H. lia.
  Qed.
  Lemma asum_le P ws : ∀ i, asum P i ws <= needed ws.
  Proof using.
    induction ws as [|p r IH]; intros i; [done|]. cbn [asum needed foldr]. specialize (IH (S i)). unfold needed in IH.
    destruct (P i); lia.
  Qed.
  Lemma asum_all P ws : ∀ i, (∀ w, (i <= w < i + length ws)%nat → P w = true) → asum P i ws = needed ws.
  Proof using.
    induction ws as [|p r IH]; intros i H; [done|]. cbn [asum needed foldr length] in *. rewrite (H i) by lia.
    rewrite (IH (S i)); [done|]. intros w Hw. apply H. lia.
  Qed.
  Lemma asum_none P ws : ∀ i, (∀ w, (i <= w < i + length ws)%nat → P w = false) → asum P i ws = 0.
  Proof using.
    induction ws as [|p r IH]; intros i H; [done|]. cbn [asum length] in *. rewrite (H i) by lia.
    rewrite (IH (S i)); [done|]. intros w Hw. apply H. lia.
  Qed.
  Lemma asum_upd P P' ws p w : ∀ i, ws !! w = Some p → P (i + w)%nat = false → P' (i + w)%nat = true →
    (∀ v, v ≠ (i + w)%nat → P' v = P v) → asum P' i ws = asum P i ws + p.1.
  Proof using.
    revert w. induction ws as [|q r IH]; intros w i Hp H0 H1 He; [done|]. destruct w as [|w]; cbn [asum].
    - injection Hp as ->. rewrite Nat.add_0_r in *. rewrite H0, H1. rewrite (asum_ext P' P r (S i)); [lia|].
      intros v Hv. apply He. lia.
    - cbn in Hp. rewrite (He i) by lia. rewrite (IH w (S i) Hp).
      + lia.
      + by replace (S i + w)%nat with (i + S w)%nat by lia.
      + by replace (S i + w)%nat with (i + S w)%nat by lia.
      + intros v Hv. apply He. lia.
  Qed.
  Lemma needed_pos rel ws : t_groups c !! rel = Some ws → 0 < needed ws.
  Proof using Hwf.
    intros E. destruct (Hwf _ _ E) as (Hn & Hp & _). destruct ws as [|p r]; [done|]. cbn [needed foldr].
    specialize (Hp p ltac:(by left)). lia.
  Qed.
  Definition acked (ws : group) (g : N) (h : list rmsg) : N :=
    asum (λ w, bool_decide (Some (g, Some w) ∈ rkeys h)) 0 ws.

  (** ** Parts of a group *)
  Definition part (ws : group) (w : nat) : bytes := match ws !! w with Some p => p.2 | None => [] end.
  Definition parts (ws : group) (l : list nat) : gmap nat bytes := foldl (λ m w, <[w := part ws w]> m) ∅ l.
  Lemma parts_snoc ws l w : parts ws (l ++ [w]) = <[w := part ws w]> (parts ws l).
  Proof using. unfold parts. by rewrite foldl_app. Qed.
  Lemma parts_lookup ws l w : parts ws l !! w = if bool_decide (w ∈ l) then Some (part ws w) else None.
  Proof using.
    induction l as [|v l IH] using rev_ind; [done|]. rewrite parts_snoc. destruct (decide (v = w)) as [->|Hne].
    - rewrite lookup_insert, bool_decide_eq_true_2; [done|]. apply elem_of_app. right. by left.
    - rewrite lookup_insert_ne, IH by done. apply (f_equal (λ b : bool, if b then _ else _)). apply bool_decide_ext.
      rewrite elem_of_app, elem_of_list_singleton. naive_solver.
  Qed.
  Lemma parts_size ws l : NoDup l → size (parts ws l) = length l.
  Proof using.
    induction l as [|v l IH] using rev_ind; [done|]. intros Hn. apply NoDup_app in Hn as (Hn & Hd & _).
    assert (E : parts ws l !! v = None).
    { rewrite parts_lookup, bool_decide_eq_false_2; [done|]. intros Hv. apply (Hd v Hv). by left. }
    rewrite parts_snoc, (map_size_insert_None _ _ _ E), (IH Hn), app_length. cbn. lia.
  Qed.
  Lemma parts_bytes ws l : l ≡ₚ seq 0 (length ws) → rg_bytes (mk_rg (length ws) (parts ws l)) = group_bytes ws.
  Proof using.
    intros Hp. unfold rg_bytes, group_bytes. cbn [rg_waves rg_parts]. f_equal. apply list_eq. intros i.
    rewrite !list_lookup_fmap. destruct (ws !! i) as [p|] eqn:E.
    - rewrite lookup_seq_lt by (by eapply lookup_lt_Some). cbn [fmap option_fmap option_map Nat.add].
      rewrite parts_lookup, bool_decide_eq_true_2.
      + unfold part. by rewrite E.
      + rewrite Hp. apply elem_of_seq. apply lookup_lt_Some in E. lia.
    - rewrite lookup_seq_ge by (by apply lookup_ge_None). done.
  Qed.

  (** ** The two invariants *)
  Context (ps : list bytes) (Hps : Forall2 (λ ws p, t_dec c (group_bytes ws) = Some p) (t_groups c) ps).
  (** the receiver stops after this many groups *)
  Definition K : nat := S (total c - 1 - N.to_nat (t_start c)).

  Record sinv (x : st) (u : bool) : Prop := mk_sinv {
    sv_pan : s_panic (st_s x) = false;
    sv_k : (s_k (st_s x) <= total c)%nat;
    sv_hs : st_hs x = if u then full (s_k (st_s x) - 1) ++ take 1 (block (s_k (st_s x) - 1)) else full (s_k (st_s x));
    sv_u : u = true → (0 < s_k (st_s x))%nat ∧ s_wait (st_s x) = true ∧ s_note (st_s x) = 0%nat;
    sv_on : (0 < s_k (st_s x))%nat → s_on (st_s x) = Some true;
    sv_note : s_note (st_s x) = 0%nat ∨ (s_note (st_s x) = 1%nat ∧ s_wait (st_s x) = true);
    sv_wait : s_wait (st_s x) = true → (0 < s_k (st_s x))%nat;
    sv_hook : s_hook (st_s x) = true → s_k (st_s x) = total c ∧ s_wait (st_s x) = false;
    sv_ha : ∀ rel, Some (gid c rel, None) ∈ rkeys (take (st_c x) (st_hr x)) ↔ (rel < if u then s_k (st_s x) - 1 else s_k (st_s x))%nat;
    sv_acc : ∀ rel ws, (rel < s_k (st_s x))%nat → t_groups c !! rel = Some ws →
      let A := acked ws (gid c rel) (take (st_c x) (st_hr x)) in
      (A < needed ws ∧ s_tx (st_s x) !! gid c rel = Some (mk_tx rel A (negb (2 * needed ws <=? 3 * A)))) ∨
      (A = needed ws ∧ s_tx (st_s x) !! gid c rel = None ∧
       (if Nat.eqb rel (total c - 1) then SComplete else STick rel) ∈ s_stat (st_s x));
    sv_new : ∀ rel, (s_k (st_s x) <= rel)%nat → s_tx (st_s x) !! gid c rel = None;
    sv_cur : ∀ rel ws, S rel = s_k (st_s x) → t_groups c !! rel = Some ws →
      (s_wait (st_s x) = true ∧ s_note (st_s x) = 0%nat ↔ 3 * acked ws (gid c rel) (take (st_c x) (st_hr x)) < 2 * needed ws);
    sv_prev : ∀ rel ws, (S rel < s_k (st_s x))%nat → t_groups c !! rel = Some ws →
      2 * needed ws <= 3 * acked ws (gid c rel) (take (st_c x) (st_hr x));
    sv_off : s_on (st_s x) = Some false → HeaderAck false ∈ take (st_c x) (st_hr x);
    sv_start : s_on (st_s x) = Some true ↔ HeaderAck true ∈ take (st_c x) (st_hr x) }.

  Definition shape (x : st) : Prop :=
    let r := st_r x in
    let seen := take (st_b x) (st_hs x) in
    (seen = [] ∧ r = mk_rcv None ∅ None [] ∧ st_ans x = Undecided) ∨
    (st_ans x = Declined ∧ r_done r = None ∧ r_file r = None ∧ seen = full 0 ∧ r_groups r = ∅ ∧ ∀ b, RComplete b ∉ r_stat r) ∨
    (∃ k, (k < K)%nat ∧ (k <= total c)%nat ∧ seen = full k ∧ st_ans x ≠ Declined ∧
       r_file r = Some (take k ps) ∧ r_groups r = ∅ ∧ r_done r = None ∧ ∀ b, RComplete b ∉ r_stat r) ∨
    (∃ k l1 l2 ws, (k < K)%nat ∧ t_groups c !! k = Some ws ∧ t_order c k = l1 ++ l2 ∧ l2 ≠ [] ∧
       seen = full k ++ take 1 (block k) ++ (wave_msg k ws <$> l1) ∧ st_ans x = Accepted ∧
       r_file r = Some (take k ps) ∧ r_groups r = {[gid c k := mk_rg (length ws) (parts ws l1)]} ∧
       r_done r = None ∧ ∀ b, RComplete b ∉ r_stat r) ∨
    (∃ rest l w, seen = full K ++ rest ∧ (K <= total c)%nat ∧ st_ans x = Accepted ∧ r_file r = None ∧ r_groups r = ∅ ∧
       t_order c (K - 1) = l ++ [w] ∧
       ((r_done r = Some (gid c (K - 1), w, take K ps) ∧ (∀ b, RComplete b ∉ r_stat r) ∧ Some (gid c (K - 1), Some w) ∉ rkeys (st_hr x)) ∨
        (r_done r = None ∧ RComplete (concat (take K ps)) ∈ r_stat r ∧
         ∀ b, RComplete b ∈ r_stat r → b = concat (take K ps)))).

  Record rinv (x : st) : Prop := mk_rinv {
    rv_b : (st_b x <= length (st_hs x))%nat;
    rv_c : (st_c x <= length (st_hr x))%nat;
    rv_just : ∀ q, q ∈ rkeys (st_hr x) → q ∈ skeys (take (st_b x) (st_hs x));
    rv_nodup : NoDup (rkeys (st_hr x));
    rv_ans : ∀ ok, HeaderAck ok ∈ st_hr x ↔ st_ans x = (if ok then Accepted else Declined);
    rv_shape : shape x;
    rv_all : ∀ rel o, (rel < K)%nat → Some (gid c rel, o) ∈ skeys (take (st_b x) (st_hs x)) →
      Some (gid c rel, o) ∈ rkeys (st_hr x) ∨ ∃ w l, o = Some w ∧ r_done (st_r x) = Some (gid c rel, w, l) }.

  Definition inv (x : st) : Prop := (∃ u, sinv x u) ∧ rinv x.

  (** ** Lists of keys *)
  Lemma rkeys_take_S (h : list rmsg) n m : h !! n = Some m → rkeys (take (S n) h) = rkeys (take n h) ++ rkeys [m].
  Proof using. intros E. by rewrite (take_S_r _ _ _ E), omap_app. Qed.
  Lemma rkeys_take_sub (h : list rmsg) n q : q ∈ rkeys (take n h) → q ∈ rkeys h.
  Proof using. rewrite <- (take_drop n h) at 2. rewrite omap_app, elem_of_app. by left. Qed.
  Lemma rkeys_fresh (h : list rmsg) n m q : NoDup (rkeys h) → h !! n = Some m → rkey m = Some q → q ∉ rkeys (take n h).
  Proof using.
    intros Hn E Eq Hin. rewrite <- (take_drop_middle _ _ _ E), omap_app in Hn. cbn in Hn. rewrite Eq in Hn.
    apply NoDup_app in Hn as (_ & Hd & _). apply (Hd q Hin). by left.
  Qed.
  Lemma rkeys_in (h : list rmsg) m q : m ∈ h → rkey m = Some q → q ∈ rkeys h.
  Proof using. intros H E. apply elem_of_list_omap. by exists m. Qed.

  Lemma hs_prefix x u : sinv x u → st_hs x `prefix_of` full (total c).
  Proof using.
    intros V. rewrite (sv_hs _ _ V). pose proof (sv_k _ _ V). destruct u.
    - destruct (sv_u _ _ V eq_refl) as (H1 & _). transitivity (full (s_k (st_s x))); [|apply full_prefix; lia].
      destruct (s_k (st_s x)) as [|k]; [lia|]. rewrite full_S. replace (S k - 1)%nat with k by lia.
      apply prefix_app. rewrite <- (take_drop 1 (block k)) at 2. by eexists.
    - apply full_prefix. lia.
  Qed.
  Lemma hs_keys_nodup x u : sinv x u → NoDup (skeys (st_hs x)).
  Proof using Hwf.
    intros V. destruct (hs_prefix _ _ V) as [t Ht]. pose proof (full_keys_nodup (total c) (Nat.le_refl _)) as Hn.
    rewrite Ht, fmap_app in Hn. by apply NoDup_app in Hn as (Hn & _).
  Qed.
  Lemma hs_keys x u rel o : sinv x u → Some (gid c rel, o) ∈ skeys (st_hs x) →
    (rel < s_k (st_s x))%nat ∧ (u = true → S rel = s_k (st_s x) → o = None).
  Proof using.
    intros V H. rewrite (sv_hs _ _ V) in H. destruct u.
    - destruct (sv_u _ _ V eq_refl) as (H1 & _). rewrite fmap_app, elem_of_app in H. destruct H as [H|H].
      + destruct (full_keys _ _ H) as [?|(r' & o' & [= E1 E2] & Hr)]; [done|]. apply gid_inj in E1. subst r'. split; [lia|lia].
      + cbn in H. apply elem_of_list_singleton in H. injection H as E ->. apply gid_inj in E. subst. split; [lia|done].
    - destruct (full_keys _ _ H) as [?|(r' & o' & [= E1 E2] & Hr)]; [done|]. apply gid_inj in E1. subst r'. split; [lia|done].
  Qed.
  Lemma full_wave_key k rel w : Some (gid c rel, Some w) ∈ skeys (full k) →
    ∃ ws p, t_groups c !! rel = Some ws ∧ ws !! w = Some p.
  Proof using Hwf.
    induction k as [|k IH]; [by intros ?%elem_of_list_singleton|].
    rewrite full_S, fmap_app, elem_of_app. intros [H|H]; [by apply IH|].
    cbn [block fmap list_fmap skey] in H. apply elem_of_cons in H as [?|H]; [done|].
    destruct (t_groups c !! k) as [ws|] eqn:E; [|unfold group_msgs in H; rewrite E in H; by apply elem_of_nil in H].
    rewrite (group_msgs_eq _ _ E), <- list_fmap_compose in H. apply elem_of_list_fmap in H as (v & [= Eg ->] & Hv).
    apply gid_inj in Eg. subst rel. exists ws. destruct (Hwf _ _ E) as (_ & _ & Hp). rewrite Hp, elem_of_seq in Hv.
    destruct (lookup_lt_is_Some_2 ws v) as [p Ep]; [lia|]. eauto.
  Qed.
  Lemma hs_wave_key x u rel w : sinv x u → Some (gid c rel, Some w) ∈ skeys (st_hs x) →
    ∃ ws p, t_groups c !! rel = Some ws ∧ ws !! w = Some p.
  Proof using Hwf.
    intros V H. destruct (hs_prefix _ _ V) as [t Ht]. apply (full_wave_key (total c)). rewrite Ht, fmap_app, elem_of_app. by left.
  Qed.
  Lemma just_hs x q : rinv x → q ∈ rkeys (st_hr x) → q ∈ skeys (st_hs x).
  Proof using.
    intros R H. apply (rv_just _ R) in H. rewrite <- (take_drop (st_b x) (st_hs x)), fmap_app, elem_of_app. by left.
  Qed.
  Lemma rkey_gid x u g o : sinv x u → rinv x → Some (g, o) ∈ rkeys (st_hr x) → ∃ rel, g = gid c rel.
  Proof using.
    intros V R H. apply (just_hs _ _ R) in H. destruct (hs_prefix _ _ V) as [t Ht].
    assert (H' : Some (g, o) ∈ skeys (full (total c))) by (rewrite Ht, fmap_app, elem_of_app; by left).
    destruct (full_keys _ _ H') as [?|(r' & o' & [= E1 E2] & Hr)]; [done|]. eauto.
  Qed.

  Lemma acked_ext ws g h h' : (∀ w, Some (g, Some w) ∈ rkeys h ↔ Some (g, Some w) ∈ rkeys h') → acked ws g h = acked ws g h'.
  Proof using. intros H. apply asum_ext. intros w _. by apply bool_decide_ext. Qed.
  Lemma acked_zero ws g h : (∀ w, Some (g, Some w) ∉ rkeys h) → acked ws g h = 0.
  Proof using. intros H. apply asum_none. intros w _. by apply bool_decide_eq_false_2. Qed.
  Lemma acked_more ws g h h' w p : ws !! w = Some p → Some (g, Some w) ∉ rkeys h → rkeys h' = rkeys h ++ [Some (g, Some w)] →
    acked ws g h' = acked ws g h + p.1.
  Proof using.
    intros Hp Hn E. apply (asum_upd _ _ _ _ w 0 Hp).
    - cbn. by apply bool_decide_eq_false_2.
    - cbn. apply bool_decide_eq_true_2. rewrite E, elem_of_app. right. by left.
    - intros v Hv. cbn in Hv. apply bool_decide_ext. rewrite E, elem_of_app, elem_of_list_singleton.
      split; [|by left]. intros [?|[= ->]]; [done|done].
  Qed.

  (** ** Steps *)
  Lemma sinv_ext x x' u : sinv x u → st_s x' = st_s x → st_hs x' = st_hs x →
    take (st_c x') (st_hr x') = take (st_c x) (st_hr x) → sinv x' u.
  Proof using.
    intros V E1 E2 E3. destruct V. constructor; try (rewrite ?E1, ?E2, ?E3; assumption).
  Qed.
  Lemma rinv_grow x x' : rinv x → st_r x' = st_r x → st_ans x' = st_ans x → st_b x' = st_b x → st_hr x' = st_hr x →
    (∃ ms, st_hs x' = st_hs x ++ ms) → (st_c x' <= length (st_hr x))%nat → rinv x'.
  Proof using.
    intros R E1 E2 E3 E4 (ms & E5) Hc. pose proof (rv_b _ R) as Hb.
    assert (ET : take (st_b x') (st_hs x') = take (st_b x) (st_hs x)) by (rewrite E3, E5; by apply take_app_le).
    constructor; rewrite ?ET, ?E1, ?E2, ?E4; try apply R; try done.
    - rewrite E3, E5, app_length. lia.
    - unfold shape. rewrite ET, E1, E2, E4. apply R.
  Qed.

  Lemma loop_ok x s' ms : inv x → snd_loop c (st_s x) = Some (s', ms) →
    inv (mk_st s' (st_r x) (st_ans x) (st_hs x ++ ms) (st_b x) (st_hr x) (st_c x)).
  Proof using Hwf.
    intros [[u V] R]. unfold snd_loop. pose proof V as [V1 V2 V3 V4 V5 V6 V7 V8 V9 V10 V11 V12 V13 V14 V15].
    rewrite V1. cbn [orb]. destruct (s_hook (st_s x)) eqn:Eh; [done|]. cbn [orb].
    destruct (bool_decide (s_on (st_s x) = Some true)) eqn:Eo; [|done]. apply bool_decide_eq_true in Eo. cbn [negb].
    intros E. split; [|eapply (rinv_grow x); eauto; cbn; apply R].
    destruct (s_wait (st_s x)) eqn:Ew.
    - destruct (s_note (st_s x)) as [|n] eqn:En; [done|]. injection E as <- <-.
      assert (u = false) as -> by (destruct u; [|done]; by destruct (V4 eq_refl) as (_ & _ & ?)).
      destruct V6 as [?|[[= ->] _]]; [done|].
      exists false. split; cbn [st_s s_panic s_k st_hs s_wait s_note s_on s_hook st_c st_hr s_tx s_stat]; try done.
      + by rewrite app_nil_r.
      + by left.
      + intros rel ws H1 H2. split; [by intros [? _]|]. intros H3. apply (V12 _ _ H1 H2) in H3 as [_ ?]. done.
    - assert (u = false) as -> by (destruct u; [|done]; by destruct (V4 eq_refl) as (_ & ? & _)).
      assert (s_note (st_s x) = 0%nat) as En by (destruct V6 as [?|[_ ?]]; done).
      destruct (t_groups c !! s_k (st_s x)) as [ws|] eqn:Eg; injection E as <- <-.
      + assert (Hno : ∀ o, Some (gid c (s_k (st_s x)), o) ∉ rkeys (take (st_c x) (st_hr x))).
        { intros o H. apply rkeys_take_sub in H. apply (just_hs _ _ R) in H. apply (hs_keys _ _ _ _ V) in H as [H _]. lia. }
        pose proof (needed_pos _ _ Eg) as Hpos.
        pose proof (lookup_lt_Some _ _ _ Eg) as Hlt.
        exists true. split; cbn [st_s s_panic s_k st_hs s_wait s_note s_on s_hook st_c st_hr s_tx s_stat]; try done.
        * rewrite V3. replace (S (s_k (st_s x)) - 1)%nat with (s_k (st_s x)) by lia. f_equal. unfold block. rewrite Eg. done.
        * intros _. split; [lia|done].
        * by left.
        * intros _. lia.
        * intros rel. rewrite V9. replace (S (s_k (st_s x)) - 1)%nat with (s_k (st_s x)) by lia. done.
        * intros rel ws' H1 H2. destruct (decide (rel = s_k (st_s x))) as [->|Hne].
          -- rewrite Eg in H2. injection H2 as <-. left. rewrite acked_zero by (intros w; apply Hno).
             split; [done|]. rewrite lookup_insert. do 2 f_equal. symmetry. apply negb_true_iff, N.leb_gt. lia.
          -- rewrite lookup_insert_ne by (intros ?%gid_inj; lia). apply V10; [lia|done].
        * intros rel H. rewrite lookup_insert_ne by (intros ?%gid_inj; lia). apply V11. lia.
        * intros rel ws' [= ->] H2. rewrite Eg in H2. injection H2 as <-. rewrite acked_zero by (intros w; apply Hno).
          split; [lia|done].
        * intros rel ws' H1 H2. destruct (decide (S rel = s_k (st_s x))) as [He|Hne]; [|apply V13; [lia|done]].
          destruct (decide (3 * acked ws' (gid c rel) (take (st_c x) (st_hr x)) < 2 * needed ws')) as [Hlt'|]; [|lia].
          apply (V12 _ _ He H2) in Hlt' as [? _]. congruence.
      + apply lookup_ge_None in Eg. exists false.
        split; cbn [st_s s_panic s_k st_hs s_wait s_note s_on s_hook st_c st_hr s_tx s_stat]; try done.
        * by rewrite app_nil_r.
        * intros _. split; [|done]. unfold total in *. lia.
  Qed.

  Lemma snd_fields s : mk_snd (s_on s) (s_k s) (s_wait s) (s_note s) (s_tx s) (s_hook s) (s_stat s) (s_panic s) = s.
  Proof using. by destruct s. Qed.

  (** a message without a key for a wave or a group header only matters through what it changes *)
  Lemma sinv_nokey x x' u m :
    sinv x u → st_hr x !! st_c x = Some m → st_hr x' = st_hr x → st_c x' = S (st_c x) → st_hs x' = st_hs x →
    (∀ g o, Some (g, o) ∉ rkeys [m]) →
    s_panic (st_s x') = false → s_k (st_s x') = s_k (st_s x) → s_wait (st_s x') = s_wait (st_s x) →
    s_note (st_s x') = s_note (st_s x) → s_tx (st_s x') = s_tx (st_s x) → s_hook (st_s x') = s_hook (st_s x) →
    (∀ y, y ∈ s_stat (st_s x) → y ∈ s_stat (st_s x')) →
    ((0 < s_k (st_s x))%nat → s_on (st_s x') = Some true) →
    (s_on (st_s x') = Some false → HeaderAck false ∈ take (S (st_c x)) (st_hr x)) →
    (s_on (st_s x') = Some true ↔ HeaderAck true ∈ take (S (st_c x)) (st_hr x)) →
    sinv x' u.
  Proof using.
    intros V Em E1 E2 E3 Hno Ep Ek Ew En Et Eh Hst Ho1 Ho2 Ho3.
    assert (HK : ∀ g o, Some (g, o) ∈ rkeys (take (S (st_c x)) (st_hr x)) ↔ Some (g, o) ∈ rkeys (take (st_c x) (st_hr x))).
    { intros g o. rewrite (rkeys_take_S _ _ _ Em), elem_of_app. split; [intros [?|?]; [done|by destruct (Hno g o)]|by left]. }
    assert (HA : ∀ ws g, acked ws g (take (S (st_c x)) (st_hr x)) = acked ws g (take (st_c x) (st_hr x))).
    { intros ws g. apply acked_ext. intros w. apply HK. }
    destruct V as [V1 V2 V3 V4 V5 V6 V7 V8 V9 V10 V11 V12 V13 V14 V15].
    constructor; rewrite ?E1, ?E2, ?E3, ?Ek, ?Ew, ?En, ?Et, ?Eh; try assumption.
    - intros rel. rewrite HK. apply V9.
    - intros rel ws H1 H2. cbn zeta. rewrite HA. destruct (V10 rel ws H1 H2) as [?|(? & ? & ?)]; [by left|right]. eauto.
    - intros rel ws H1 H2. rewrite HA. by apply V12.
    - intros rel ws H1 H2. rewrite HA. by apply V13.
  Qed.

  Lemma not_both x : rinv x → HeaderAck true ∈ st_hr x → HeaderAck false ∈ st_hr x → False.
  Proof using. intros R H1%(rv_ans _ R) H2%(rv_ans _ R). congruence. Qed.
  Lemma take_in {A} (h : list A) n m : m ∈ take n h → m ∈ h.
  Proof using. intros H. rewrite <- (take_drop n h), elem_of_app. by left. Qed.

  Lemma wave_ack_ok x g w u : sinv x u → rinv x → st_hr x !! st_c x = Some (WaveAck g w) →
    sinv (mk_st (snd_wave_ack c (st_s x) g w) (st_r x) (st_ans x) (st_hs x) (st_b x) (st_hr x) (S (st_c x))) u.
  Proof using Hwf.
    intros V R Em. pose proof (rkeys_fresh _ _ _ _ (rv_nodup _ R) Em eq_refl) as Hfr.
    assert (Hin : Some (g, Some w) ∈ rkeys (st_hr x)).
    { apply (rkeys_in _ (WaveAck g w)); [|done]. by eapply elem_of_list_lookup_2. }
    destruct (rkey_gid _ _ _ _ V R Hin) as [rel ->].
    pose proof (just_hs _ _ R Hin) as Hj. destruct (hs_keys _ _ _ _ V Hj) as [Hlt Hu].
    destruct (hs_wave_key _ _ _ _ V Hj) as (ws & p & Hg & Hp).
    pose proof (rkeys_take_S _ _ _ Em) as EK. cbn [omap list_omap rkey] in EK.
    assert (HA : acked ws (gid c rel) (take (S (st_c x)) (st_hr x)) = acked ws (gid c rel) (take (st_c x) (st_hr x)) + p.1)
      by (by apply (acked_more _ _ _ _ w)).
    assert (HA' : ∀ rel' ws', rel' ≠ rel → acked ws' (gid c rel') (take (S (st_c x)) (st_hr x)) = acked ws' (gid c rel') (take (st_c x) (st_hr x))).
    { intros rel' ws' Hne. apply acked_ext. intros v. rewrite EK, elem_of_app, elem_of_list_singleton.
      split; [|by left]. intros [?|[= E1%gid_inj E2]]; done. }
    assert (Hle : acked ws (gid c rel) (take (S (st_c x)) (st_hr x)) <= needed ws) by apply asum_le.
    assert (Hpp : 0 < p.1) by (destruct (Hwf _ _ Hg) as (_ & Hw & _); apply Hw; by eapply elem_of_list_lookup_2).
    set (A := acked ws (gid c rel) (take (st_c x) (st_hr x))) in *.
    destruct V as [V1 V2 V3 V4 V5 V6 V7 V8 V9 V10 V11 V12 V13 V14 V15].
    destruct (V10 rel ws Hlt Hg) as [[HAn Htx]|[HAn _]]; fold A in HAn; [|lia]. fold A in Htx.
    assert (Eq : snd_wave_ack c (st_s x) (gid c rel) w =
      mk_snd (s_on (st_s x)) (s_k (st_s x)) (s_wait (st_s x))
        (if (3 * A <? 2 * needed ws) && (2 * needed ws <=? 3 * (A + p.1)) then S (s_note (st_s x)) else s_note (st_s x))
        (if A + p.1 =? needed ws then delete (gid c rel) (s_tx (st_s x))
         else <[gid c rel := mk_tx rel (A + p.1) (negb (2 * needed ws <=? 3 * (A + p.1)))]> (s_tx (st_s x)))
        (s_hook (st_s x))
        (if A + p.1 =? needed ws then s_stat (st_s x) ++ [if Nat.eqb rel (total c - 1) then SComplete else STick rel] else s_stat (st_s x))
        (s_panic (st_s x))).
    { unfold snd_wave_ack. rewrite Htx. cbn [x_rel x_acked x_alert]. rewrite Hg, Hp.
      assert (E1 : negb (2 * needed ws <=? 3 * A) && ((A + p.1 =? needed ws) || (2 * needed ws <=? 3 * (A + p.1))) =
                   (3 * A <? 2 * needed ws) && (2 * needed ws <=? 3 * (A + p.1))) by (clear -HAn; lia).
      rewrite E1. f_equal. destruct (A + p.1 =? needed ws); [done|]. do 2 f_equal. clear. lia. }
    rewrite Eq. clear Eq.
    assert (Hk : 3 * A < 2 * needed ws → S rel = s_k (st_s x)).
    { intros H. destruct (decide (S rel = s_k (st_s x))); [done|]. pose proof (V13 rel ws ltac:(lia) Hg) as H'. fold A in H'. lia. }
    assert (Hw1 : 3 * A < 2 * needed ws → s_wait (st_s x) = true ∧ s_note (st_s x) = 0%nat ∧ u = false).
    { intros H. pose proof (Hk H) as He. destruct (proj2 (V12 rel ws He Hg) H). split_and!; try done.
      destruct u; [|done]. by specialize (Hu eq_refl He). }
    assert (Hmem : ∀ y, y ∈ s_stat (st_s x) →
      y ∈ (if A + p.1 =? needed ws then s_stat (st_s x) ++ [if Nat.eqb rel (total c - 1) then SComplete else STick rel] else s_stat (st_s x))).
    { intros y Hy. destruct (A + p.1 =? needed ws); [|done]. apply elem_of_app. by left. }
    constructor; cbn [st_s st_hs st_c st_hr s_on s_k s_wait s_note s_tx s_hook s_stat s_panic]; try done.
    - intros ->. destruct (V4 eq_refl) as (H1 & H2 & H3). split_and!; try done.
      destruct ((3 * A <? 2 * needed ws) && (2 * needed ws <=? 3 * (A + p.1))) eqn:E; [|done].
      apply andb_true_iff in E as [E _]. apply N.ltb_lt in E. destruct (Hw1 E) as (_ & _ & ?). done.
    - destruct ((3 * A <? 2 * needed ws) && (2 * needed ws <=? 3 * (A + p.1))) eqn:E; [|done].
      apply andb_true_iff in E as [E _]. apply N.ltb_lt in E. destruct (Hw1 E) as (? & -> & ?). by right.
    - intros rel'. rewrite EK, elem_of_app, elem_of_list_singleton, <- V9. split; [|by left]. by intros [?|?].
    - intros rel' ws' H1 H2. cbn zeta. destruct (decide (rel' = rel)) as [->|Hne].
      + rewrite Hg in H2. injection H2 as <-. rewrite HA. destruct (A + p.1 =? needed ws) eqn:E.
        * apply N.eqb_eq in E. right. rewrite lookup_delete. split_and!; try done. apply elem_of_app. right. by left.
        * apply N.eqb_neq in E. left. rewrite lookup_insert. split; [lia|done].
      + rewrite (HA' _ _ Hne).
        assert (El : (if A + p.1 =? needed ws then delete (gid c rel) (s_tx (st_s x))
                else <[gid c rel:=mk_tx rel (A + p.1) (negb (2 * needed ws <=? 3 * (A + p.1)))]> (s_tx (st_s x))) !! gid c rel' = s_tx (st_s x) !! gid c rel').
        { destruct (A + p.1 =? needed ws); [apply lookup_delete_ne|apply lookup_insert_ne]; intros ?%gid_inj; lia. }
        rewrite El. destruct (V10 rel' ws' H1 H2) as [?|(? & ? & ?)]; [by left|right]. eauto.
    - intros rel' H. rewrite <- (V11 rel' H).
      destruct (A + p.1 =? needed ws); [apply lookup_delete_ne|apply lookup_insert_ne]; intros ?%gid_inj; lia.
    - intros rel' ws' H1 H2. destruct (decide (rel' = rel)) as [->|Hne].
      + rewrite Hg in H2. injection H2 as <-. rewrite HA. pose proof (V12 rel ws H1 Hg) as H12. fold A in H12.
        destruct ((3 * A <? 2 * needed ws) && (2 * needed ws <=? 3 * (A + p.1))) eqn:E.
        * split; [by intros [_ ?]|]. lia.
        * rewrite H12. lia.
      + rewrite (HA' _ _ Hne). rewrite <- (V12 _ _ H1 H2).
        destruct ((3 * A <? 2 * needed ws) && (2 * needed ws <=? 3 * (A + p.1))) eqn:E; [|done].
        apply andb_true_iff in E as [E _]. apply N.ltb_lt in E. pose proof (Hk E). lia.
    - intros rel' ws' H1 H2. destruct (decide (rel' = rel)) as [->|Hne].
      + rewrite Hg in H2. injection H2 as <-. rewrite HA. pose proof (V13 rel ws H1 Hg) as H13. fold A in H13. lia.
      + rewrite (HA' _ _ Hne). by apply V13.
    - intros H. specialize (V14 H). rewrite (take_S_r _ _ _ Em), elem_of_app. by left.
    - rewrite V15, (take_S_r _ _ _ Em), elem_of_app, elem_of_list_singleton. split; [by left|]. by intros [?|?].
  Qed.

  Lemma to_s_ok x m s' ms : inv x → st_hr x !! st_c x = Some m → snd_recv c (st_s x) m = (s', ms) →
    inv (mk_st s' (st_r x) (st_ans x) (st_hs x ++ ms) (st_b x) (st_hr x) (S (st_c x))).
  Proof using Hwf.
    intros [[u V] R] Em E. pose proof (lookup_lt_Some _ _ _ Em) as Hlen.
    split; [|by eapply (rinv_grow x); eauto].
    assert (Hmr : m ∈ st_hr x) by (by eapply elem_of_list_lookup_2).
    unfold snd_recv in E. rewrite (sv_pan _ _ V) in E. destruct m as [ok|g|g w|known].
    - destruct (s_on (st_s x)) as [b|] eqn:Eo; injection E as <- <-; exists u.
      + apply (sinv_nokey x _ _ _ V Em); cbn [st_s st_hs st_hr st_c s_on]; try done; try (by rewrite app_nil_r); try apply V.
        * by intros g o ?%elem_of_list_singleton.
        * intros H. rewrite (take_S_r _ _ _ Em), elem_of_app. left. by apply V.
        * rewrite (sv_start _ _ V), (take_S_r _ _ _ Em), elem_of_app, elem_of_list_singleton. split; [by left|].
          intros [?|[= <-]]; [done|]. rewrite <- (sv_start _ _ V), Eo. destruct b; [done|]. exfalso.
          apply (not_both x R); [done|]. by apply (take_in _ (st_c x)), V.
      + apply (sinv_nokey x _ _ _ V Em); cbn [st_s st_hs st_hr st_c s_on with_stat s_k s_wait s_note s_tx s_hook s_stat s_panic]; try done; try (by rewrite app_nil_r); try apply V.
        * by intros g o ?%elem_of_list_singleton.
        * intros y Hy. apply elem_of_app. by left.
        * intros H. apply (sv_on _ _ V) in H. congruence.
        * intros [= ->]. rewrite (take_S_r _ _ _ Em), elem_of_app. right. by left.
        * rewrite (take_S_r _ _ _ Em), elem_of_app, elem_of_list_singleton. split; [intros [= ->]; by right|].
          intros [H|[= <-]]; [|done]. apply (sv_start _ _ V) in H. congruence.
    - pose proof (rkeys_fresh _ _ _ _ (rv_nodup _ R) Em eq_refl) as Hfr.
      assert (Hin : Some (g, None) ∈ rkeys (st_hr x)) by (by apply (rkeys_in _ (GroupHeaderAck g))).
      destruct (rkey_gid _ _ _ _ V R Hin) as [rel ->].
      destruct (hs_keys _ _ _ _ V (just_hs _ _ R Hin)) as [Hlt _].
      pose proof (rkeys_take_S _ _ _ Em) as EK. cbn [omap list_omap rkey] in EK.
      pose proof V as [V1 V2 V3 V4 V5 V6 V7 V8 V9 V10 V11 V12 V13 V14 V15].
      rewrite V9 in Hfr. destruct u; [|lia]. destruct (V4 eq_refl) as (H1 & Hw & Hn).
      assert (Hrel : S rel = s_k (st_s x)) by lia.
      destruct (lookup_lt_is_Some_2 (t_groups c) rel) as [ws Hg]; [unfold total in *; lia|].
      pose proof (proj1 (V12 _ _ Hrel Hg) (conj Hw Hn)) as H3.
      destruct (V10 _ _ Hlt Hg) as [[HAn Htx]|[HAn _]]; [|cbn zeta in HAn; lia]. rewrite Htx in E. cbn [x_rel] in E. injection E as <- <-.
      assert (HA' : ∀ rel' ws', acked ws' (gid c rel') (take (S (st_c x)) (st_hr x)) = acked ws' (gid c rel') (take (st_c x) (st_hr x))).
      { intros rel' ws'. apply acked_ext. intros v. rewrite EK, elem_of_app, elem_of_list_singleton. split; [|by left]. by intros [?|?]. }
      exists false. constructor; cbn [st_s st_hs st_c st_hr]; try done.
      + rewrite V3, <- Hrel. replace (S rel - 1)%nat with rel by lia. rewrite full_S, <- app_assoc. f_equal.
      + intros rel'. rewrite EK, elem_of_app, elem_of_list_singleton, V9. split.
        * intros [?|[= E%gid_inj]]; lia.
        * intros ?. destruct (decide (rel' = rel)) as [->|]; [by right|left; lia].
      + intros rel' ws' ? ?. rewrite HA'. by apply V10.
      + intros rel' ws' ? ?. rewrite HA'. by apply V12.
      + intros rel' ws' ? ?. rewrite HA'. by apply V13.
      + intros H. specialize (V14 H). rewrite (take_S_r _ _ _ Em), elem_of_app. by left.
      + rewrite V15, (take_S_r _ _ _ Em), elem_of_app, elem_of_list_singleton. split; [by left|]. by intros [?|?].
    - injection E as <- <-. exists u. rewrite app_nil_r. by apply wave_ack_ok.
    - assert (E2 : s_on s' = s_on (st_s x) ∧ s_k s' = s_k (st_s x) ∧ s_wait s' = s_wait (st_s x) ∧ s_note s' = s_note (st_s x) ∧
        s_tx s' = s_tx (st_s x) ∧ s_hook s' = s_hook (st_s x) ∧ s_panic s' = s_panic (st_s x) ∧ ms = [] ∧ ∀ y, y ∈ s_stat (st_s x) → y ∈ s_stat s').
      { destruct known; injection E as <- <-; split_and!; try done. intros y Hy. apply elem_of_app. by left. }
      destruct E2 as (E1 & E2 & E3 & E4 & E5 & E6 & E7 & -> & E8). exists u.
      apply (sinv_nokey x _ _ _ V Em); cbn [st_s st_hs st_hr st_c]; try done; try (by rewrite app_nil_r); rewrite ?E1, ?E7; try apply V.
      + by intros g o ?%elem_of_nil.
      + intros H. rewrite (take_S_r _ _ _ Em), elem_of_app. left. by apply V.
      + rewrite (sv_start _ _ V), (take_S_r _ _ _ Em), elem_of_app, elem_of_list_singleton. split; [by left|]. by intros [?|?].
  Qed.

  Lemma full_keys_back rel o k n : (rel < k)%nat → (k <= n)%nat → Some (gid c rel, o) ∈ skeys (full n) → Some (gid c rel, o) ∈ skeys (full k).
  Proof using.
    intros Hk Hn. induction Hn as [|n Hn IH]; [done|]. rewrite full_S, fmap_app, elem_of_app. intros [H|H]; [by apply IH|]. exfalso.
    cbn [block fmap list_fmap skey] in H. apply elem_of_cons in H as [[= E%gid_inj _]|H]; [lia|].
    unfold group_msgs in H. destruct (t_groups c !! n) as [ws|]; [|by apply elem_of_nil in H].
    rewrite <- list_fmap_compose in H. apply elem_of_list_fmap in H as (w & [= E%gid_inj _] & _). lia.
  Qed.

  Lemma next_key x u m : sinv x u → st_hs x !! st_b x = Some m → skey m ∉ skeys (take (st_b x) (st_hs x)).
  Proof using Hwf.
    intros V E H. pose proof (hs_keys_nodup _ _ V) as Hn. rewrite <- (take_drop_middle _ _ _ E), fmap_app in Hn.
    apply NoDup_app in Hn as (_ & Hd & _). apply (Hd _ H). by left.
  Qed.

  Lemma take_grow x ms : rinv x → take (st_c x) (st_hr x ++ ms) = take (st_c x) (st_hr x).
  Proof using. intros R. apply take_app_le, R. Qed.

  (** what is common to the messages that reach the receiver *)
  Lemma recv_common x u m r' ms x' : sinv x u → rinv x → st_hs x !! st_b x = Some m →
    x' = mk_st (st_s x) r' (st_ans x) (st_hs x) (S (st_b x)) (st_hr x ++ ms) (st_c x) →
    (rkeys ms = [] ∨ rkeys ms = [skey m]) → (∀ ok, HeaderAck ok ∉ ms) →
    shape x' →
    (∀ rel o, (rel < K)%nat → Some (gid c rel, o) ∈ skeys (take (st_b x) (st_hs x)) →
       (∃ w l, o = Some w ∧ r_done (st_r x) = Some (gid c rel, w, l)) → ∃ w l, o = Some w ∧ r_done r' = Some (gid c rel, w, l)) →
    (∀ rel o, (rel < K)%nat → skey m = Some (gid c rel, o) →
       rkeys ms = [skey m] ∨ ∃ w l, o = Some w ∧ r_done r' = Some (gid c rel, w, l)) →
    inv x'.
  Proof using Hwf.
    intros V R E -> Hk Hno Hsh Ho Hm. split.
    { exists u. eapply sinv_ext; [done..|]. cbn [st_c st_hr]. by apply take_grow. }
    pose proof (next_key _ _ _ V E) as Hnk. pose proof (lookup_lt_Some _ _ _ E) as Hlt.
    constructor; cbn [st_s st_r st_ans st_hs st_b st_hr st_c].
    - lia.
    - rewrite app_length. pose proof (rv_c _ R). lia.
    - intros q. rewrite omap_app, (take_S_r _ _ _ E), fmap_app, !elem_of_app. intros [H|H]; [left; by apply R|right].
      destruct Hk as [Hk|Hk]; rewrite Hk in H; [by apply elem_of_nil in H|done].
    - rewrite omap_app. apply NoDup_app. split; [apply R|]. destruct Hk as [-> | ->].
      + split; [by intros ? _ ?%elem_of_nil|constructor].
      + split; [|apply NoDup_singleton]. intros q Hq ->%elem_of_list_singleton. apply Hnk, (rv_just _ R), Hq.
    - intros ok. rewrite elem_of_app, <- (rv_ans _ R). split; [|by left]. intros [?|H]; [done|]. by destruct (Hno ok).
    - done.
    - intros rel o Hrel. rewrite (take_S_r _ _ _ E), fmap_app, omap_app, !elem_of_app. intros [H|H].
      + destruct (rv_all _ R _ _ Hrel H) as [?|H']; [by left; left|]. right. by eapply Ho.
      + cbn in H. apply elem_of_list_singleton in H. symmetry in H. destruct (Hm _ _ Hrel H) as [Hk'|?]; [|by right].
        left. right. rewrite Hk', H. by left.
  Qed.

  Lemma take_S_ps k ws : t_groups c !! k = Some ws → ∃ p, t_dec c (group_bytes ws) = Some p ∧ take (S k) ps = take k ps ++ [p].
  Proof using Hps.
    intros E. destruct (Forall2_lookup_l _ _ _ _ _ Hps E) as (p & Ep & Hd). exists p. split; [done|]. by apply take_S_r.
  Qed.

  Lemma rkeys_no_wave x u m rel w : sinv x u → rinv x → st_hs x !! st_b x = Some m → skey m = Some (gid c rel, Some w) →
    Some (gid c rel, Some w) ∉ rkeys (st_hr x).
  Proof using Hwf. intros V R E Ek H. apply (next_key _ _ _ V E). rewrite Ek. by apply R. Qed.

  Lemma seen_accepted x u k rest : sinv x u → rinv x → st_hs x = full k ++ rest → rest ≠ [] → st_ans x = Accepted.
  Proof using.
    intros V R E Hr. apply (rv_ans _ R true), (take_in _ (st_c x)). rewrite <- (sv_start _ _ V). apply V.
    destruct (s_k (st_s x)) as [|j] eqn:Ek; [exfalso|lia]. pose proof (sv_hs _ _ V) as H. rewrite Ek in H.
    destruct u; [destruct (sv_u _ _ V eq_refl); lia|]. rewrite E in H. unfold full in H. cbn [seq fmap list_fmap concat] in H.
    destruct (concat (block <$> seq 0 k)); cbn in H; [|done]. by destruct rest.
  Qed.

  Lemma to_r_ok x m r' ms : inv x → st_hs x !! st_b x = Some m → rcv_recv c (st_r x) m = (r', ms) →
    inv (mk_st (st_s x) r' (st_ans x) (st_hs x) (S (st_b x)) (st_hr x ++ ms) (st_c x)).
  Proof using Hwf Hps.
    intros [[u V] R] Em E. pose proof (hs_prefix _ _ V) as Hpre. pose proof (next_key _ _ _ V Em) as Hnk.
    pose proof (take_S_r _ _ _ Em) as Hts.
    destruct (rv_shape _ R) as [(Hs & Hr & Ha)|[(Ha & Hd & Hf & Hs & Hg & Hst)|[(k & HkK & Hkt & Hs & Ha & Hf & Hg & Hd & Hst)|
      [(k & l1 & l2 & ws & HkK & Hws & Ho & Hl2 & Hs & Ha & Hf & Hg & Hd & Hst)|(rest & l & w0 & Hs & HKt & Ha & Hf & Hg & Ho & Hd)]]]].
    - destruct (prefix_next [] FileHeader (concat (block <$> seq 0 (total c))) _ eq_refl _ _ _ Hpre Hs Em) as [-> Hs'].
      rewrite Hr in E. cbn in E. injection E as <- <-.
      eapply (recv_common x u _ _ _ _ V R Em eq_refl); cbn [st_r r_done]; [by left|by intros ? ?%elem_of_nil| | |done].
      + right. right. left. exists 0%nat. cbn [st_s st_r st_ans st_hs st_b st_hr st_c r_file r_groups r_done r_stat]. rewrite Ha, Hs'. split_and!; try done; [unfold K; lia|lia|].
        by intros ? ?%elem_of_nil.
      + intros rel o _ H. rewrite Hs in H. by apply elem_of_nil in H.
    - exfalso.
      assert (Hk0 : s_k (st_s x) = 0%nat).
      { destruct (s_k (st_s x)) eqn:Ek; [done|]. exfalso; apply (not_both x R).
        - apply (take_in _ (st_c x)). rewrite <- (sv_start _ _ V). apply V. lia.
        - by apply (rv_ans _ R false). }
      pose proof (sv_hs _ _ V) as H. rewrite Hk0 in H. destruct u; [destruct (sv_u _ _ V eq_refl); lia|].
      rewrite H in Em, Hs. apply lookup_lt_Some in Em. rewrite Hs in Hnk || idtac.
      assert (length (take (st_b x) (full 0)) = length (full 0)) by (by rewrite Hs). cbn in Em.
      destruct (st_b x); [done|lia].
    - assert (Hlt : (k < total c)%nat).
      { destruct (decide (k = total c)) as [->|]; [|lia]. exfalso. destruct Hpre as [t Ht]. pose proof (take_drop_middle _ _ _ Em) as H.
        rewrite Hs in H. rewrite <- H, <- app_assoc in Ht. apply (f_equal length) in Ht. rewrite !app_length in Ht. cbn in Ht. lia. }
      destruct (lookup_lt_is_Some_2 (t_groups c) k Hlt) as [ws Hws].
      assert (Hfull : ∃ t, full (total c) = full k ++ GroupHeader (gid c k) (length ws) :: t).
      { destruct (full_prefix (S k) (total c) Hlt) as [t Ht]. rewrite Ht, full_S. unfold block. rewrite Hws, <- app_assoc. by eexists. }
      destruct Hfull as [t Hfull]. destruct (prefix_next _ _ _ _ Hfull _ _ _ Hpre Hs Em) as [-> Hs'].
      cbn [rcv_recv] in E. rewrite Hf, Hg, lookup_empty in E. injection E as <- <-.
      eapply (recv_common x u _ _ _ _ V R Em eq_refl); cbn [st_r r_done]; [by right|by intros ? ?%elem_of_list_singleton| | |by left].
      + right. right. right. left. exists k, [], (t_order c k), ws.
        cbn [st_s st_r st_ans st_hs st_b st_hr st_c r_file r_groups r_done r_stat]. split_and!; try done.
        * intros Hnil. destruct (Hwf _ _ Hws) as (Hne & _ & Hp). rewrite Hnil in Hp. apply Permutation_nil in Hp. by destruct ws.
        * rewrite Hs'. unfold block. rewrite Hws. done.
        * rewrite <- (take_drop (st_b x) (st_hs x)), Hs in Em.
          eapply (seen_accepted x u k (drop (st_b x) (st_hs x)) V R); [by rewrite <- Hs, take_drop|].
          intros Hnil. rewrite Hnil, app_nil_r in Em. apply lookup_lt_Some in Em.
          assert (length (take (st_b x) (st_hs x)) = length (full k)) by (by rewrite Hs). rewrite take_length in *. lia.
      + intros rel o _ _ (w & l & _ & H). congruence.
    - destruct l2 as [|w l2]; [done|].
      pose proof (lookup_lt_Some _ _ _ Hws) as Hlt. fold (total c) in Hlt.
      destruct (Hwf _ _ Hws) as (Hne & _ & Hp).
      assert (Hblock : block k = take 1 (block k) ++ (wave_msg k ws <$> (l1 ++ w :: l2))).
      { unfold block. cbn [take]. by rewrite (group_msgs_eq _ _ Hws), Ho. }
      assert (Hfull : ∃ t, full (total c) = (full k ++ take 1 (block k) ++ (wave_msg k ws <$> l1)) ++ wave_msg k ws w :: t).
      { destruct (full_prefix (S k) (total c) Hlt) as [t Ht]. rewrite Ht, full_S. generalize dependent (take 1 (block k)).
        intros h1 _ Hb. rewrite Hb, fmap_app, fmap_cons, <- !app_assoc.
        exists ((wave_msg k ws <$> l2) ++ t). by rewrite app_comm_cons, <- !app_assoc. }
      destruct Hfull as [t Hfull]. destruct (prefix_next _ _ _ _ Hfull _ _ _ Hpre Hs Em) as [-> Hs'].
      assert (Hnd : NoDup (l1 ++ w :: l2)) by (rewrite <- Ho, Hp; apply NoDup_seq).
      assert (Hlen : (length l1 + S (length l2))%nat = length ws).
      { pose proof (Permutation_length Hp) as H. rewrite Ho, app_length, seq_length in H. cbn in H. done. }
      assert (Hw : (w < length ws)%nat).
      { assert (H : w ∈ seq 0 (length ws)) by (rewrite <- Hp, Ho, elem_of_app; right; by left). apply elem_of_seq in H. lia. }
      assert (Hwl1 : w ∉ l1) by (apply NoDup_app in Hnd as (_ & H & _); intros H'; apply (H _ H'); by left).
      assert (Hnd1 : NoDup (l1 ++ [w])).
      { rewrite cons_middle, app_assoc in Hnd. by apply NoDup_app in Hnd as (H & _). }
      unfold wave_msg in E. cbn [rcv_recv] in E. rewrite Hg, lookup_singleton in E. cbn [rg_parts rg_waves] in E.
      rewrite parts_lookup, bool_decide_eq_false_2 in E by done.
      rewrite (proj2 (Nat.leb_gt _ _) Hw) in E.
      change (match ws !! w with Some p => p.2 | None => [] end) with (part ws w) in E.
      rewrite <- parts_snoc in E. rewrite (parts_size _ _ Hnd1), app_length in E. cbn [length] in E.
      destruct (length l1 + 1 <? length ws)%nat eqn:El.
      + apply Nat.ltb_lt in El. injection E as <- <-.
        eapply (recv_common x u _ _ _ _ V R Em eq_refl); cbn [st_r r_done]; [by right|by intros ? ?%elem_of_list_singleton| | |by left].
        * right. right. right. left. exists k, (l1 ++ [w]), l2, ws.
          cbn [st_s st_r st_ans st_hs st_b st_hr st_c r_file r_groups r_done r_stat]. split_and!; try done.
          -- by rewrite Ho, <- app_assoc.
          -- intros ->. cbn in Hlen. lia.
          -- by rewrite Hs', fmap_app, <- !app_assoc.
          -- by rewrite insert_singleton.
        * intros rel o _ _ (w' & l & _ & H). congruence.
      + apply Nat.ltb_ge in El. assert (l2 = []) as -> by (destruct l2; [done|cbn in Hlen; lia]).
        rewrite Hf in E. rewrite parts_bytes in E by (by rewrite <- Hp, Ho).
        destruct (take_S_ps _ _ Hws) as (pk & Hdec & Hps'). rewrite Hdec in E.
        assert (Hseen : take (S (st_b x)) (st_hs x) = full (S k)).
        { rewrite Hs', full_S. clear -Hblock. generalize dependent (take 1 (block k)).
          intros h1 Hb. rewrite Hb, fmap_app, <- !app_assoc. done. }
        rewrite delete_singleton in E.
        destruct (N.of_nat (total c - 1) <=? gid c k) eqn:Eg; injection E as <- <-.
        * apply N.leb_le in Eg. assert (HK : K = S k) by (unfold gid, K in *; lia).
          eapply (recv_common x u _ _ _ _ V R Em eq_refl); cbn [st_r r_done]; [by left|by intros ? ?%elem_of_nil| | |].
          -- right. right. right. right. exists [], l1, w.
             cbn [st_s st_r st_ans st_hs st_b st_hr st_c r_file r_groups r_done r_stat]. rewrite HK. replace (S k - 1)%nat with k by lia.
             split_and!; try done.
             ++ by rewrite app_nil_r.
             ++ left. rewrite Hps', app_nil_r. split_and!; try done. by eapply rkeys_no_wave.
          -- intros rel o _ _ (w' & l & _ & H). congruence.
          -- intros rel o _ [= E1%gid_inj <-]. subst rel. right. eauto.
        * apply N.leb_gt in Eg. assert (HK : (S k < K)%nat) by (unfold gid, K in *; lia).
          eapply (recv_common x u _ _ _ _ V R Em eq_refl); cbn [st_r r_done]; [by right|by intros ? ?%elem_of_list_singleton| | |by left].
          -- right. right. left. exists (S k).
             cbn [st_s st_r st_ans st_hs st_b st_hr st_c r_file r_groups r_done r_stat]. rewrite Hps'. split_and!; try done.
             ++ congruence.
             ++ intros b. rewrite elem_of_app, elem_of_list_singleton. intros [?|?]; [by eapply Hst|done].
          -- intros rel o _ _ (w' & l & _ & H). congruence.
    - assert (Hlate : ∀ rel o, (rel < K)%nat → skey m = Some (gid c rel, o) → False).
      { intros rel o Hrel Hk. apply Hnk. rewrite Hk, Hs, fmap_app, elem_of_app. left. apply (full_keys_back _ _ _ (total c)); [done..|].
        destruct Hpre as [t Ht]. rewrite Ht, fmap_app, elem_of_app. left. rewrite <- Hk. apply elem_of_list_fmap_1. by eapply elem_of_list_lookup_2. }
      destruct m as [|g n|g w part].
      + exfalso. apply Hnk. rewrite Hs, fmap_app, elem_of_app. left. by left.
      + assert ((r', ms) = (st_r x, [GroupHeaderAck g])) as [= -> ->] by (rewrite <- E; cbn [rcv_recv]; by rewrite Hf).
        eapply (recv_common x u _ _ _ _ V R Em eq_refl); [by right|by intros ? ?%elem_of_list_singleton| |done|by left].
        right. right. right. right. exists (rest ++ [GroupHeader g n]), l, w0. cbn [st_s st_r st_ans st_hs st_b st_hr st_c].
        rewrite Hts, Hs, <- app_assoc. split_and!; try done. destruct Hd as [(Hd1 & Hd2 & Hd3)|?]; [left|by right]. split_and!; try done.
        rewrite omap_app, elem_of_app. intros [?|H]; [done|]. cbn in H. by apply elem_of_list_singleton in H.
      + assert ((r', ms) = (st_r x, [FileError false])) as [= -> ->] by (rewrite <- E; cbn [rcv_recv]; by rewrite Hg, lookup_empty).
        eapply (recv_common x u _ _ _ _ V R Em eq_refl); [by left|by intros ? ?%elem_of_list_singleton| |done|].
        * right. right. right. right. exists (rest ++ [Wave g w part]), l, w0. cbn [st_s st_r st_ans st_hs st_b st_hr st_c].
          rewrite Hts, Hs, <- app_assoc. split_and!; try done. destruct Hd as [(Hd1 & Hd2 & Hd3)|?]; [left|by right]. split_and!; try done.
          rewrite omap_app, elem_of_app. intros [?|H]; [done|]. by apply elem_of_nil in H.
        * intros rel o H1 H2. exfalso. by eapply Hlate.
  Qed.

  Lemma no_none x : rinv x → st_ans x = Undecided → None ∉ rkeys (st_hr x).
  Proof using.
    intros R Ha (m & Hm & Ek)%elem_of_list_omap. destruct m as [ok| | |]; try done. apply (rv_ans _ R) in Hm. destruct ok; congruence.
  Qed.
  Lemma answer_common x u r' (ok : bool) : sinv x u → rinv x → st_ans x = Undecided → None ∈ skeys (take (st_b x) (st_hs x)) →
    r_done r' = r_done (st_r x) →
    let x' := mk_st (st_s x) r' (if ok then Accepted else Declined) (st_hs x) (st_b x) (st_hr x ++ [HeaderAck ok]) (st_c x) in
    shape x' → inv x'.
  Proof using.
    intros V R Ha Hn Hd x' Hsh. split.
    { exists u. apply (sinv_ext x x' u V eq_refl eq_refl). unfold x'. cbn [st_c st_hr]. by apply take_grow. }
    constructor; try done; unfold x'; cbn [st_s st_r st_ans st_hs st_b st_hr st_c].
    - apply R.
    - rewrite app_length. pose proof (rv_c _ R). lia.
    - intros q. rewrite omap_app, elem_of_app. intros [H|H]; [by apply R|]. cbn in H. by apply elem_of_list_singleton in H as ->.
    - rewrite omap_app. apply NoDup_app. split; [apply R|]. split; [|apply NoDup_singleton].
      cbn. intros q Hq ->%elem_of_list_singleton. by apply (no_none _ R).
    - intros ok'. rewrite elem_of_app, elem_of_list_singleton, (rv_ans _ R), Ha.
      destruct ok, ok'; naive_solver.
    - intros rel o Hrel H. rewrite Hd, omap_app, elem_of_app. destruct (rv_all _ R _ _ Hrel H) as [?|?]; [by left; left|by right].
  Qed.
  Lemma full_none k rest : None ∈ skeys (full k ++ rest).
  Proof using. by left. Qed.

  Lemma accept_ok x f : inv x → st_ans x = Undecided → r_file (st_r x) = Some f →
    inv (mk_st (st_s x) (mk_rcv (r_file (st_r x)) (r_groups (st_r x)) (r_done (st_r x)) (r_stat (st_r x) ++ [RBegin])) Accepted
           (st_hs x) (st_b x) (st_hr x ++ [HeaderAck true]) (st_c x)).
  Proof using.
    intros [[u V] R] Ha Hf.
    destruct (rv_shape _ R) as [(Hs & Hr & _)|[(? & _)|[(k & HkK & Hkt & Hs & _ & Hf' & Hg & Hd & Hst)|
      [(k & l1 & l2 & ws & _ & _ & _ & _ & _ & ? & _)|(rest & l & w0 & _ & _ & ? & _)]]]]; [|congruence| |congruence..].
    { rewrite Hr in Hf. done. }
    apply (answer_common x u _ true V R Ha).
    - rewrite Hs. by left.
    - done.
    - right. right. left. exists k. cbn [st_s st_r st_ans st_hs st_b st_hr st_c r_file r_groups r_done r_stat]. split_and!; try done.
      intros b. rewrite elem_of_app, elem_of_list_singleton. intros [?|?]; [by eapply Hst|done].
  Qed.
  Lemma decline_ok x f : inv x → st_ans x = Undecided → r_file (st_r x) = Some f →
    inv (mk_st (st_s x) (mk_rcv None (r_groups (st_r x)) (r_done (st_r x)) (r_stat (st_r x) ++ [RFail])) Declined
           (st_hs x) (st_b x) (st_hr x ++ [HeaderAck false]) (st_c x)).
  Proof using.
    intros [[u V] R] Ha Hf.
    destruct (rv_shape _ R) as [(Hs & Hr & _)|[(? & _)|[(k & HkK & Hkt & Hs & _ & Hf' & Hg & Hd & Hst)|
      [(k & l1 & l2 & ws & _ & _ & _ & _ & _ & ? & _)|(rest & l & w0 & _ & _ & ? & _)]]]]; [|congruence| |congruence..].
    { rewrite Hr in Hf. done. }
    assert (k = 0%nat) as ->.
    { destruct k as [|k]; [done|]. exfalso. assert (st_ans x = Accepted); [|congruence].
      eapply (seen_accepted x u k (block k ++ drop (st_b x) (st_hs x)) V R); [|done]. by rewrite app_assoc, <- full_S, <- Hs, take_drop. }
    apply (answer_common x u _ false V R Ha).
    - rewrite Hs. by left.
    - done.
    - right. left. cbn [st_s st_r st_ans st_hs st_b st_hr st_c r_file r_groups r_done r_stat]. split_and!; try done.
      intros b. rewrite elem_of_app, elem_of_list_singleton. intros [?|?]; [by eapply Hst|done].
  Qed.
  Lemma written_ok x g w sink : inv x → st_ans x = Accepted → r_done (st_r x) = Some (g, w, sink) →
    inv (mk_st (st_s x) (mk_rcv (r_file (st_r x)) (r_groups (st_r x)) None (r_stat (st_r x) ++ [RComplete (concat sink)])) Accepted
           (st_hs x) (st_b x) (st_hr x ++ [WaveAck g w]) (st_c x)).
  Proof using Hwf.
    intros [[u V] R] Ha Hf.
    destruct (rv_shape _ R) as [(Hs & Hr & _)|[(? & _)|[(k & _ & _ & _ & _ & _ & _ & ? & _)|
      [(k & l1 & l2 & ws & _ & _ & _ & _ & _ & _ & _ & _ & ? & _)|(rest & l & w0 & Hs & HKt & _ & Hfl & Hg & Ho & Hd)]]]]; [|congruence..|].
    { rewrite Hr in Hf. done. }
    destruct Hd as [(Hd & Hst & Hno)|(? & _)]; [|congruence]. rewrite Hd in Hf. injection Hf as <- <- <-.
    assert (HK0 : (0 < K)%nat) by (unfold K; lia).
    split.
    { exists u. eapply sinv_ext; [done..|]. cbn [st_c st_hr]. by apply take_grow. }
    constructor; cbn [st_s st_r st_ans st_hs st_b st_hr st_c].
    - apply R.
    - rewrite app_length. pose proof (rv_c _ R). lia.
    - intros q. rewrite omap_app, elem_of_app. intros [H|H]; [by apply R|]. cbn in H. apply elem_of_list_singleton in H as ->.
      rewrite Hs, fmap_app, elem_of_app. left. replace K with (S (K - 1)) by lia. rewrite full_S, fmap_app, elem_of_app. right. unfold block.
      destruct (lookup_lt_is_Some_2 (t_groups c) (K - 1)) as [ws Hws]; [unfold total in *; lia|].
      rewrite (group_msgs_eq _ _ Hws), Ho. rewrite fmap_cons, fmap_app. right. rewrite fmap_app, elem_of_app. right. by left.
    - rewrite omap_app. apply NoDup_app. split; [apply R|]. split; [|apply NoDup_singleton]. cbn. intros q Hq ->%elem_of_list_singleton. done.
    - intros ok. rewrite elem_of_app, elem_of_list_singleton, (rv_ans _ R), Ha. split; [by intros [?|?]|by left].
    - right. right. right. right. exists rest, l, w0. cbn [st_s st_r st_ans st_hs st_b st_hr st_c r_file r_groups r_done r_stat]. split_and!; try done.
      right. split_and!; try done.
      + apply elem_of_app. right. by left.
      + intros b. rewrite elem_of_app, elem_of_list_singleton. intros [?|[= ->]]; [by edestruct Hst|done].
    - intros rel o Hrel H. left. rewrite omap_app, elem_of_app. destruct (rv_all _ R _ _ Hrel H) as [?|(w' & l' & -> & H')]; [by left|].
      right. rewrite Hd in H'. injection H' as <- <- _. by left.
  Qed.

  Lemma inv_init : inv init.
  Proof using.
    split.
    - exists false. constructor; cbn [init st_s s_panic s_k st_hs s_wait s_note s_on s_hook st_c st_hr s_tx s_stat take]; try done; try lia.
      + intros rel. split; [by intros ?%elem_of_nil|lia].
      + split; [done|]. by intros ?%elem_of_nil.
    - constructor; cbn [init st_b st_c st_hs st_hr st_r st_ans take length]; try done; try lia.
      + constructor.
      + intros ok. split; [by intros ?%elem_of_nil|by destruct ok].
      + by left.
      + by intros ? ? _ ?%elem_of_nil.
  Qed.
  Lemma inv_step x e x' : inv x → step c x e = Some x' → inv x'.
  Proof using Hwf Hps.
    intros I. destruct e; unfold step.
    - destruct (snd_loop c (st_s x)) as [[s' ms]|] eqn:E; [|done]. intros [= <-]. by apply loop_ok.
    - destruct (st_hs x !! st_b x) as [m|] eqn:E; [|done]. destruct (rcv_recv c (st_r x) m) as [r' ms] eqn:E2. intros [= <-]. by eapply to_r_ok.
    - destruct (st_hr x !! st_c x) as [m|] eqn:E; [|done]. destruct (snd_recv c (st_s x) m) as [r' ms] eqn:E2. intros [= <-]. by eapply to_s_ok.
    - destruct (st_ans x) eqn:Ea; try done. destruct (r_file (st_r x)) as [f|] eqn:Ef; [|done]. intros [= <-]. rewrite <- Ef. by eapply accept_ok.
    - destruct (st_ans x) eqn:Ea; try done. destruct (r_file (st_r x)) as [f|] eqn:Ef; [|done]. intros [= <-]. by eapply decline_ok.
    - destruct (st_ans x) eqn:Ea; try done. destruct (r_done (st_r x)) as [[[g w] sink]|] eqn:Ef; [|done]. intros [= <-]. by eapply written_ok.
  Qed.
  Lemma inv_reached x : reached c x → inv x.
  Proof using Hwf Hps.
    intros [es E]. revert E. assert (H : inv init) by apply inv_init. revert H. generalize init as y. induction es as [|e es IH]; intros y I; cbn [run].
    - by intros [= <-].
    - destruct (step c y e) as [y'|] eqn:E; [|done]. apply IH. by eapply inv_step.
  Qed.

  (** ** What follows *)
  Lemma received_prefix x content : inv x → received x content → (K <= total c)%nat ∧ content = concat (take K ps).
  Proof using.
    intros [_ R] Hr. unfold received in Hr.
    destruct (rv_shape _ R) as [(_ & Hs & _)|[(_ & _ & _ & _ & _ & Hst)|[(k & _ & _ & _ & _ & _ & _ & _ & Hst)|
      [(k & l1 & l2 & ws & _ & _ & _ & _ & _ & _ & _ & _ & _ & Hst)|(rest & l & w0 & Hs & HKt & _ & Hfl & Hg & Ho & Hd)]]]].
    - rewrite Hs in Hr. by apply elem_of_nil in Hr.
    - by apply Hst in Hr.
    - by apply Hst in Hr.
    - by apply Hst in Hr.
    - destruct Hd as [(_ & Hst & _)|(_ & _ & Hst)]; [by apply Hst in Hr|]. split; [done|by apply Hst].
  Qed.

  Lemma full_length k n : (k <= n)%nat → (length (full k) + (n - k) <= length (full n))%nat.
  Proof using.
    induction 1 as [|n Hn IH]; [lia|]. rewrite full_S, app_length. unfold block. cbn [length]. lia.
  Qed.
  Lemma key_in_full rel ws w k : t_groups c !! rel = Some ws → (w < length ws)%nat → (rel < k)%nat → Some (gid c rel, Some w) ∈ skeys (full k).
  Proof using Hwf.
    intros Hws Hw Hk. destruct (full_prefix (S rel) k Hk) as [t Ht]. rewrite Ht, fmap_app, elem_of_app. left.
    rewrite full_S, fmap_app, elem_of_app. right. unfold block. rewrite (group_msgs_eq _ _ Hws), fmap_cons. right.
    rewrite <- list_fmap_compose. apply elem_of_list_fmap. exists w. split; [done|].
    destruct (Hwf _ _ Hws) as (_ & _ & Hp). rewrite Hp, elem_of_seq. lia.
  Qed.

  (** all waves of a group that has been sent are acknowledged once everything has arrived *)
  Lemma all_acked x rel ws : rinv x → r_done (st_r x) = None → st_c x = length (st_hr x) → (rel < K)%nat → t_groups c !! rel = Some ws →
    (∀ w, (w < length ws)%nat → Some (gid c rel, Some w) ∈ skeys (take (st_b x) (st_hs x))) →
    acked ws (gid c rel) (take (st_c x) (st_hr x)) = needed ws.
  Proof using.
    intros R Hd Hc Hrel Hws H. apply asum_all. intros w Hw. apply bool_decide_eq_true_2. rewrite Hc, take_ge by lia.
    destruct (rv_all _ R rel (Some w) Hrel) as [?|(? & ? & _ & ?)]; [apply H; lia|done|congruence].
  Qed.

  Lemma quiet_done x : inv x → K = total c → quiet c x → st_ans x = Accepted → (∃ b, received x b) ∧ transferred x.
  Proof using Hps Hwf c ps.
    intros [[u V] R] HK Hq Ha.
    assert (Hb : st_b x = length (st_hs x)).
    { specialize (Hq EvToR ltac:(set_solver)). cbn [step] in Hq. destruct (st_hs x !! st_b x) eqn:E.
      - by destruct (rcv_recv c (st_r x) s).
      - apply lookup_ge_None in E. pose proof (rv_b _ R). lia. }
    assert (Hc : st_c x = length (st_hr x)).
    { specialize (Hq EvToS ltac:(set_solver)). cbn [step] in Hq. destruct (st_hr x !! st_c x) eqn:E.
      - by destruct (snd_recv c (st_s x) r).
      - apply lookup_ge_None in E. pose proof (rv_c _ R). lia. }
    assert (Hd : r_done (st_r x) = None).
    { specialize (Hq EvWritten ltac:(set_solver)). cbn [step] in Hq. rewrite Ha in Hq. by destruct (r_done (st_r x)) as [[[??]?]|]. }
    assert (Hl : snd_loop c (st_s x) = None).
    { specialize (Hq EvLoop ltac:(set_solver)). cbn [step] in Hq. by destruct (snd_loop c (st_s x)) as [[??]|]. }
    assert (Hon : s_on (st_s x) = Some true).
    { apply (sv_start _ _ V). rewrite Hc, take_ge by lia. by apply (rv_ans _ R true). }
    assert (Hseen : take (st_b x) (st_hs x) = st_hs x) by (rewrite Hb; by apply take_ge).
    assert (Hhook : s_hook (st_s x) = true).
    { unfold snd_loop in Hl. rewrite (sv_pan _ _ V) in Hl. destruct (s_hook (st_s x)); [done|]. exfalso. cbn [orb] in Hl.
      rewrite bool_decide_eq_true_2 in Hl by done. cbn [negb] in Hl. destruct (s_wait (st_s x)) eqn:Ew; [|by destruct (t_groups c !! s_k (st_s x))].
      destruct (s_note (st_s x)) eqn:En; [|done]. pose proof (sv_wait _ _ V Ew) as Hk. pose proof (sv_k _ _ V) as Hkt.
      destruct (s_k (st_s x)) as [|rel] eqn:Ek; [lia|].
      destruct (lookup_lt_is_Some_2 (t_groups c) rel) as [ws Hws]; [unfold total in *; lia|].
      pose proof (proj1 (sv_cur _ _ V rel ws (eq_sym Ek) Hws) (conj Ew En)) as H3.
      destruct u.
      - assert (H : Some (gid c rel, None) ∈ rkeys (take (st_c x) (st_hr x))).
        { rewrite Hc, take_ge by lia. destruct (rv_all _ R rel None) as [?|(? & ? & ? & _)]; [lia| |done|done].
          rewrite Hseen, (sv_hs _ _ V), Ek. replace (S rel - 1)%nat with rel by lia. rewrite fmap_app, elem_of_app. right. by left. }
        apply (sv_ha _ _ V) in H. lia.
      - rewrite (all_acked x rel ws R Hd Hc) in H3; [lia|lia|done|]. intros w Hw. rewrite Hseen, (sv_hs _ _ V), Ek.
        apply (key_in_full _ ws); [done..|lia]. }
    destruct (sv_hook _ _ V Hhook) as [Hk Hw].
    assert (u = false) as -> by (destruct u; [|done]; destruct (sv_u _ _ V eq_refl) as (_ & ? & _); congruence).
    pose proof (sv_hs _ _ V) as Hhs. rewrite Hk in Hhs.
    assert (HK0 : (0 < K)%nat) by (unfold K; lia).
    split.
    - destruct (rv_shape _ R) as [(Hs & _)|[(? & _)|[(k & HkK & _ & Hs & _)|
        [(k & l1 & l2 & ws & HkK & Hws & Ho & Hl2 & Hs & _)|(rest & l & w0 & Hs & HKt & _ & Hfl & Hg & Ho & Hd')]]]].
      + rewrite Hseen, Hhs in Hs. done.
      + congruence.
      + exfalso. rewrite Hseen, Hhs in Hs. pose proof (full_length k (total c)). rewrite Hs in H. lia.
      + exfalso. rewrite Hseen, Hhs in Hs. pose proof (full_length (S k) (total c)) as H. rewrite Hs in H.
        rewrite full_S in H. unfold block in H. rewrite (group_msgs_eq _ _ Hws), Ho in H.
        cbn [take] in H. rewrite take_0 in H. rewrite !app_length in H. cbn [length] in H. rewrite !fmap_length, app_length in H. destruct l2; [done|]. cbn [length] in H. specialize (H ltac:(lia)). lia.
      + destruct Hd' as [(? & _)|(_ & ? & _)]; [congruence|]. by eexists.
    - destruct (lookup_lt_is_Some_2 (t_groups c) (total c - 1)) as [ws Hws]; [unfold total in *; lia|].
      destruct (sv_acc _ _ V (total c - 1) ws ltac:(lia) Hws) as [[HA _]|(_ & _ & H)].
      + exfalso. cbn zeta in HA. rewrite (all_acked x _ ws R Hd Hc) in HA; [lia|lia|done|]. intros w Hw'. rewrite Hseen, Hhs.
        apply (key_in_full _ ws); [done..|lia].
      + by rewrite Nat.eqb_refl in H.
  Qed.

  Lemma hook_received x : inv x → K = total c → (∀ rel ws, t_groups c !! rel = Some ws → length ws = 1%nat) →
    s_hook (st_s x) = true → ∃ b, received x b.
  Proof using Hwf.
    intros [[u V] R] HK Hone Hhook. destruct (sv_hook _ _ V Hhook) as [Hk Hw].
    assert (HK0 : (0 < K)%nat) by (unfold K; lia).
    destruct (lookup_lt_is_Some_2 (t_groups c) (total c - 1)) as [ws Hws]; [unfold total in *; lia|].
    pose proof (Hone _ _ Hws) as Hl1. destruct ws as [|p [|]]; try done.
    assert (Hin : Some (gid c (total c - 1), Some 0%nat) ∈ rkeys (st_hr x)).
    { destruct (decide (Some (gid c (total c - 1), Some 0%nat) ∈ rkeys (take (st_c x) (st_hr x)))) as [H|H]; [by eapply rkeys_take_sub|exfalso].
      destruct (sv_cur _ _ V (total c - 1) _ ltac:(lia) Hws) as [_ H2].
      assert (HA : acked [p] (gid c (total c - 1)) (take (st_c x) (st_hr x)) = 0).
      { unfold acked. cbn [asum]. rewrite bool_decide_eq_false_2 by done. done. }
      rewrite HA in H2. pose proof (needed_pos _ _ Hws) as Hp. destruct H2 as [? _]; [lia|congruence]. }
    pose proof (rv_just _ R _ Hin) as Hj.
    destruct (rv_shape _ R) as [(Hs & _)|[(_ & _ & _ & Hs & _)|[(k & HkK & _ & Hs & _)|
        [(k & l1 & l2 & ws & HkK & Hws' & Ho & Hl2 & Hs & _)|(rest & l & w0 & Hs & HKt & _ & Hfl & Hg & Ho & Hd')]]]]; try rewrite Hs in Hj.
    - by apply elem_of_nil in Hj.
    - by apply elem_of_list_singleton in Hj.
    - exfalso. destruct (full_keys _ _ Hj) as [?|(r' & o' & [= E1%gid_inj E2] & Hr)]; [done|lia].
    - exfalso. rewrite !fmap_app, !elem_of_app in Hj. destruct Hj as [Hj|[Hj|Hj]].
      + destruct (full_keys _ _ Hj) as [?|(r' & o' & [= E1%gid_inj E2] & Hr)]; [done|lia].
      + cbn in Hj. by apply elem_of_list_singleton in Hj.
      + destruct (Hwf _ _ Hws') as (_ & _ & Hp). pose proof (Permutation_length Hp) as Hlen.
        rewrite Ho, app_length, seq_length, (Hone _ _ Hws') in Hlen. destruct l1; [by apply elem_of_nil in Hj|].
        destruct l2; [done|]. cbn in Hlen. lia.
    - destruct Hd' as [(_ & _ & Hno)|(_ & ? & _)]; [|by eexists]. exfalso. apply Hno. rewrite HK in *.
      destruct (Hwf _ _ Hws) as (_ & _ & Hp). cbn in Hp. apply Permutation_singleton_r in Hp || apply Permutation_singleton in Hp.
      rewrite Hp in Ho. destruct l as [|a l]; [by injection Ho as <-|]. apply (f_equal length) in Ho. rewrite app_length in Ho. cbn in Ho. lia.
  Qed.

  (** ** How many steps there are *)
  Definition finished (r : rcv_st) : bool := existsb (λ y, match y with RComplete _ => true | _ => false end) (r_stat r).
  Definition decided (a : answer) : bool := match a with Undecided => false | _ => true end.
  Definition mu (x : st) : nat :=
    (st_b x + st_c x + (2 * s_k (st_s x) - Nat.b2n (s_wait (st_s x))) + Nat.b2n (s_hook (st_s x))
     + Nat.b2n (decided (st_ans x)) + Nat.b2n (finished (st_r x)))%nat.
  Definition few (x : st) : Prop := (length (st_hr x) <= st_b x + Nat.b2n (decided (st_ans x)) + Nat.b2n (finished (st_r x)))%nat.

  Lemma finished_false r : (∀ b, RComplete b ∉ r_stat r) → finished r = false.
  Proof using.
    intros H. unfold finished. apply not_true_iff_false. rewrite existsb_exists. intros (y & Hy & E). destruct y; try done.
    by eapply H, elem_of_list_In.
  Qed.
  Lemma rcv_recv_few r m r' ms : rcv_recv c r m = (r', ms) → finished r' = finished r ∧ (length ms <= 1)%nat.
  Proof using.
    unfold rcv_recv. intros E. repeat case_match; simplify_eq; cbn; split; try lia; try done; unfold finished; cbn [r_stat]; rewrite existsb_app; cbn; by rewrite ?orb_false_r.
  Qed.
  Lemma mu_step x e x' : inv x → few x → step c x e = Some x' → mu x' = S (mu x) ∧ few x'.
  Proof using.
    intros [[u V] R] F. unfold mu, few in *. destruct e; cbn [step].
    - destruct (snd_loop c (st_s x)) as [[s' ms]|] eqn:E; [|done]. intros [= <-]. cbn [st_s st_r st_ans st_hs st_b st_hr st_c]. split; [|done].
      unfold snd_loop in E. pose proof (sv_wait _ _ V) as Hw.
      destruct (s_panic (st_s x)), (s_hook (st_s x)); try done. cbn [orb] in E. destruct (bool_decide _); [|done]. cbn [negb] in E.
      destruct (s_wait (st_s x)) eqn:Ew.
      + destruct (s_note (st_s x)); [done|]. injection E as <- <-. cbn. specialize (Hw eq_refl). lia.
      + destruct (t_groups c !! s_k (st_s x)); injection E as <- <-; cbn; lia.
    - destruct (st_hs x !! st_b x) as [m|] eqn:E; [|done]. destruct (rcv_recv c (st_r x) m) as [r' ms] eqn:E2. intros [= <-].
      cbn [st_s st_r st_ans st_hs st_b st_hr st_c]. destruct (rcv_recv_few _ _ _ _ E2) as [-> ?]. rewrite app_length. lia.
    - destruct (st_hr x !! st_c x) as [m|] eqn:E; [|done]. destruct (snd_recv c (st_s x) m) as [s' ms] eqn:E2. intros [= <-].
      cbn [st_s st_r st_ans st_hs st_b st_hr st_c].
      assert (H : s_k s' = s_k (st_s x) ∧ s_wait s' = s_wait (st_s x) ∧ s_hook s' = s_hook (st_s x)).
      { unfold snd_recv, snd_wave_ack, with_stat in E2. repeat case_match; simplify_eq; done. }
      destruct H as (-> & -> & ->). lia.
    - destruct (st_ans x) eqn:Ea; try done. destruct (r_file (st_r x)) as [f|] eqn:Ef; [|done]. intros [= <-].
      cbn [st_s st_r st_ans st_hs st_b st_hr st_c decided Nat.b2n] in *. unfold finished in *. cbn [r_stat]. rewrite existsb_app, app_length. cbn [existsb length orb]. rewrite orb_false_r. lia.
    - destruct (st_ans x) eqn:Ea; try done. destruct (r_file (st_r x)) as [f|] eqn:Ef; [|done]. intros [= <-].
      cbn [st_s st_r st_ans st_hs st_b st_hr st_c decided Nat.b2n] in *. unfold finished in *. cbn [r_stat]. rewrite existsb_app, app_length. cbn [existsb length orb]. rewrite orb_false_r. lia.
    - destruct (st_ans x) eqn:Ea; try done. destruct (r_done (st_r x)) as [[[g w] sink]|] eqn:Ef; [|done]. intros [= <-].
      assert (Hno : finished (st_r x) = false).
      { apply finished_false. destruct (rv_shape _ R) as [(Hs & Hr & _)|[(? & _)|[(k & _ & _ & _ & _ & _ & _ & ? & _)|
          [(k & l1 & l2 & ws & _ & _ & _ & _ & _ & _ & _ & _ & ? & _)|(rest & l & w0 & Hs & HKt & _ & Hfl & Hg & Ho & Hd)]]]]; try congruence.
        - rewrite Hr in Ef. done.
        - destruct Hd as [(_ & H & _)|(? & _)]; [done|congruence]. }
      rewrite Hno in *. cbn [st_s st_r st_ans st_hs st_b st_hr st_c decided Nat.b2n] in *.
      unfold finished. cbn [r_stat]. rewrite existsb_app, app_length. cbn [existsb length orb]. rewrite orb_true_r. cbn [Nat.b2n]. lia.
  Qed.

  Lemma group_msgs_length rel ws : t_groups c !! rel = Some ws → length (group_msgs c rel) = length ws.
  Proof using Hwf.
    intros E. rewrite (group_msgs_eq _ _ E), fmap_length. destruct (Hwf _ _ E) as (_ & _ & Hp).
    by rewrite (Permutation_length Hp), seq_length.
  Qed.
  Lemma full_length_eq k : (k <= total c)%nat → length (full k) = (1 + k + sum_list (length <$> take k (t_groups c)))%nat.
  Proof using Hwf.
    induction k as [|k IH]; intros Hk; [done|]. rewrite full_S, app_length, IH by lia.
    destruct (lookup_lt_is_Some_2 (t_groups c) k) as [ws Hws]; [unfold total in *; lia|].
    rewrite (take_S_r _ _ _ Hws), fmap_app, sum_list_with_app.
    unfold block. cbn [length]. rewrite (group_msgs_length _ _ Hws).
    cbn. lia.
  Qed.
  Lemma run_bound es x : run c init es = Some x → (length es <= budget c)%nat.
  Proof using Hwf Hps.
    intros E.
    assert (G : ∀ es y x, inv y → few y → run c y es = Some x → inv x ∧ few x ∧ mu x = (mu y + length es)%nat).
    { clear -Hwf Hps. induction es as [|e es IH]; intros y x I F; cbn [run length]; [intros [= <-]; split_and!; try done; lia|].
      destruct (step c y e) as [y'|] eqn:E; [|done]. intros H. destruct (mu_step _ _ _ I F E) as [Hm F'].
      destruct (IH y' x ltac:(by eapply inv_step) F' H) as (? & ? & Hm'). split_and!; try done. lia. }
    destruct (G es init x inv_init) as ([[u V] R] & F & Hm); [unfold few; cbn; lia|done|].
    change (mu init) with 0%nat in Hm. cbn [Nat.add] in Hm. rewrite <- Hm. unfold budget. pose proof (rv_b _ R) as Hb. pose proof (rv_c _ R) as Hc. pose proof (sv_k _ _ V) as Hk.
    pose proof (prefix_length _ _ (hs_prefix _ _ V)) as Hl. rewrite full_length_eq in Hl by lia. unfold total in Hl at 2. rewrite firstn_all in Hl.
    unfold mu, few in *. destruct (s_hook (st_s x)), (decided (st_ans x)), (finished (st_r x)); cbn [Nat.b2n] in *; lia.
  Qed.
End Proofs.

(** ** A declined offer *)
Definition fresh_s (s : snd_st) : Prop := s = mk_snd None 0 false 0 ∅ false [] false.
Definition fresh_r (r : rcv_st) (stat : list rstat) : Prop := r_groups r = ∅ ∧ r_done r = None ∧ r_stat r = stat.
Definition undone (x : st) : Prop :=
  match st_ans x with
  | Undecided => fresh_s (st_s x) ∧ fresh_r (st_r x) [] ∧ st_hs x = [FileHeader] ∧ st_hr x = [] ∧ st_c x = 0%nat
  | Declined =>
      fresh_r (st_r x) [RFail] ∧ st_hs x = [FileHeader] ∧ st_hr x = [HeaderAck false] ∧
      ((st_c x = 0%nat ∧ fresh_s (st_s x)) ∨ (st_c x = 1%nat ∧ st_s x = mk_snd (Some false) 0 false 0 ∅ false [SFail] false))
  | Accepted => True
  end.
Lemma fresh_loop c s : fresh_s s → snd_loop c s = None.
Proof. by intros ->. Qed.
Lemma fresh_header c r stat r' ms : fresh_r r stat → rcv_recv c r FileHeader = (r', ms) → fresh_r r' stat ∧ ms = [].
Proof. intros (H1 & H2 & H3) E. cbn in E. destruct (r_file r); injection E as <- <-; by split_and!. Qed.
Lemma undone_step c x e x' : undone x → step c x e = Some x' → undone x'.
Proof.
  unfold undone at 1. destruct (st_ans x) eqn:Ea.
  - intros (Hs & Hr & Hhs & Hhr & Hc) E. destruct e; cbn [step] in E; rewrite ?Ea in E.
    + rewrite (fresh_loop c _ Hs) in E. done.
    + rewrite Hhs in E. destruct (st_b x) as [|b]; [|by destruct b]. cbn [lookup list_lookup] in E.
      destruct (rcv_recv c (st_r x) FileHeader) as [r' ms] eqn:Er. destruct (fresh_header _ _ _ _ _ Hr Er) as [Hr' ->].
      injection E as <-. unfold undone. cbn [st_ans st_s st_r st_hs st_hr st_c]. rewrite ?Ea, Hhr. by split_and!.
    + rewrite Hhr in E. done.
    + destruct (r_file (st_r x)); [|done]. injection E as <-. done.
    + destruct (r_file (st_r x)); [|done]. injection E as <-. unfold undone. cbn [st_ans st_s st_r st_hs st_hr st_c].
      destruct Hr as (H1 & H2 & H3). rewrite Hhr, H3. split_and!; [done|done|done|by left].
    + done.
  - intros _ E. unfold undone. assert (Ha : st_ans x' = Accepted); [|by rewrite Ha].
    destruct e; cbn [step] in E; rewrite ?Ea in E; repeat case_match; simplify_eq/=; done.
  - intros (Hr & Hhs & Hhr & Hs) E. destruct e; cbn [step] in E; rewrite ?Ea in E; try done.
    + destruct Hs as [[_ Hs]|[_ Hs]]; [by rewrite (fresh_loop c _ Hs) in E|]. by rewrite Hs in E.
    + rewrite Hhs in E. destruct (st_b x) as [|b]; [|by destruct b]. cbn [lookup list_lookup] in E.
      destruct (rcv_recv c (st_r x) FileHeader) as [r' ms] eqn:Er. destruct (fresh_header _ _ _ _ _ Hr Er) as [Hr' ->].
      injection E as <-. unfold undone. cbn [st_ans st_s st_r st_hs st_hr st_c]. rewrite ?Ea, Hhr. by split_and!.
    + rewrite Hhr in E. destruct Hs as [[Hc Hs]|[Hc Hs]]; rewrite Hc in E; [|done]. cbn [lookup list_lookup] in E. rewrite Hs in E. cbn in E. injection E as <-.
      unfold undone. cbn [st_ans st_s st_r st_hs st_hr st_c]. rewrite ?Ea, Hhs. split_and!; [by destruct Hr as (?&?&?)..|done|done|by right].
Qed.
Lemma undone_reached c x : reached c x → undone x.
Proof.
  intros [es E]. assert (H : ∀ es x0, undone x0 → run c x0 es = Some x → undone x).
  { clear es E. induction es as [|e es IH]; intros x0 Hx E; cbn in E; [by injection E as <-|].
    destruct (step c x0 e) as [x1|] eqn:E1; [|done]. eapply IH; [|exact E]. by eapply undone_step. }
  by apply (H es init).
Qed.
