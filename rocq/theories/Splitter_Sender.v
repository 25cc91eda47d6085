(** The sender's packets and description meet the assumptions of the receiver's proof. *)
From Coq Require Import ZifyBool ZifyNat ZifyN.
From stdpp Require Import prelude gmap.
From Verif Require Import Splitter_Model Splitter_Spec Splitter_Proofs.
Local Open Scope nat_scope.

Lemma collect_alt l : collect l = list_to_map (reverse l).
Proof.
  unfold collect. induction l as [|[k v] l IH] using rev_ind; [done|].
  rewrite foldl_app, reverse_snoc, IH. done.
Qed.

Lemma collect_lookup l k v : NoDup l.*1 -> collect l !! k = Some v <-> (k, v) ∈ l.
Proof.
  intros Hnd. rewrite collect_alt, <- elem_of_list_to_map.
  - by rewrite elem_of_reverse.
  - by rewrite fmap_reverse, reverse_Permutation.
Qed.

Lemma map_to_list_collect l : NoDup l.*1 -> map_to_list (collect l) ≡ₚ l.
Proof.
  intros Hnd. rewrite collect_alt, map_to_list_to_map.
  - apply reverse_Permutation.
  - by rewrite fmap_reverse, reverse_Permutation.
Qed.

Lemma imap_fmap_seq {A B} (f : nat -> A -> B) (g : nat -> A) a k :
  imap f (g <$> seq a k) = (fun i => f i (g (a + i))) <$> seq 0 k.
Proof.
  revert f a. induction k as [|k IH]; intros f a; [done|].
  cbn [seq fmap list_fmap imap]. rewrite Nat.add_0_r. f_equal.
  rewrite IH. rewrite <- fmap_S_seq, <- list_fmap_compose.
  apply list_fmap_ext. intros i x Hx. unfold compose. f_equal. f_equal. lia.
Qed.

Lemma seq_shift_fmap a k : (fun i => a + i) <$> seq 0 k = seq a k.
Proof.
  apply list_eq. intros i. rewrite list_lookup_fmap.
  destruct (decide (i < k)).
  - rewrite !lookup_seq_lt by done. done.
  - rewrite !lookup_seq_ge by lia. done.
Qed.

Lemma wave_packets_alt K P w ct :
  wave_packets K P w ct
  = (fun i => (w * K + i, take P (drop (i * P) ct))) <$> seq 0 (nchunks P (length ct)).
Proof. unfold wave_packets, chunks. by rewrite imap_fmap_seq. Qed.

Section tx.
  Context (K P M : nat) (enc : nat -> list N -> list N) (pt : list N).
  Context (HK : 0 < K) (HP : 0 < P) (HM : 0 < M).
  Let n := nchunks M (length pt).
  Let ps (w : nat) : list N := take M (drop (w * M) pt).
  Let cs (w : nat) : list N := enc w (ps w).
  Context (Hn : 0 < n).
  Context (Hfull : forall w, S w < n -> wave_fits K P (length (cs w))).
  Context (Hlast : 0 < length (cs (n - 1)) <= K * P).
  Let cnt (w : nat) : nat := nchunks P (length (cs w)).
  Let needed : nat := (n - 1) * K + cnt (n - 1).
  Let payload (s : nat) : list N := take P (drop (s mod K * P) (cs (s / K))).

  Lemma block w k : k <= K ->
    (fun i => (w * K + i, take P (drop (i * P) (cs w)))) <$> seq 0 k
    = (fun s => (s, payload s)) <$> seq (w * K) k.
  Proof.
    intros Hk. rewrite <- (seq_shift_fmap (w * K) k), <- list_fmap_compose.
    apply list_fmap_ext. intros i x Hx. apply lookup_seq in Hx. unfold compose, payload.
    destruct (coords_div0 K w x) as [-> ->]; [lia|done].
  Qed.

  Lemma waves_packets_eq :
    waves_packets K P M enc pt = (fun s => (s, payload s)) <$> seq 0 needed.
  Proof.
    unfold waves_packets, chunks. fold n. rewrite imap_fmap_seq.
    assert (HA : forall k, k <= n - 1 ->
      concat ((fun i => wave_packets K P i (enc i (take M (drop ((0 + i) * M) pt)))) <$> seq 0 k)
      = (fun s => (s, payload s)) <$> seq 0 (k * K)).
    { induction k as [|k IH]; intros Hk; [done|].
      rewrite seq_S, fmap_app, concat_app, IH by lia. cbn [fmap list_fmap concat].
      rewrite app_nil_r, wave_packets_alt. change (enc (0 + k) _) with (cs k). cbn [Nat.add].
      change (enc k (take M (drop (k * M) pt))) with (cs k).
      rewrite (nchunks_unique P (length (cs k)) K HP) by (apply Hfull; lia).
      rewrite block by lia. rewrite <- fmap_app, <- seq_app. f_equal. f_equal. lia. }
    assert (Hseq : seq 0 n = seq 0 (n - 1) ++ [n - 1]).
    { replace n with (S (n - 1)) at 1 by lia. apply seq_S. }
    rewrite Hseq, fmap_app, concat_app, HA by lia. cbn [fmap list_fmap concat]. cbn [Nat.add].
    rewrite app_nil_r, wave_packets_alt.
    change (enc (n - 1) (take M (drop ((n - 1) * M) pt))) with (cs (n - 1)).
    change (nchunks P (length (cs (n - 1)))) with (cnt (n - 1)).
    assert (Hc : cnt (n - 1) <= K).
    { destruct (nchunks_spec P (length (cs (n - 1))) HP) as (H1 & H2 & _). unfold cnt.
      specialize (H2 ltac:(lia)). nia. }
    rewrite block by done. rewrite <- fmap_app, <- seq_app. done.
  Qed.

  Lemma keys : (waves_packets K P M enc pt).*1 = seq 0 needed.
  Proof. rewrite waves_packets_eq, <- list_fmap_compose. apply list_fmap_id. Qed.

  Lemma pkts_lookup s : s < needed -> collect (waves_packets K P M enc pt) !! s = Some (payload s).
  Proof.
    intros Hs. apply collect_lookup.
    - rewrite keys. apply NoDup_seq.
    - rewrite waves_packets_eq. apply elem_of_list_fmap. exists s. split; [done|]. apply elem_of_seq. lia.
  Qed.

  Lemma pkts_dom : dom (collect (waves_packets K P M enc pt)) = (set_seq 0 needed : gset nat).
  Proof.
    apply set_eq. intros s. rewrite elem_of_dom, elem_of_set_seq. split.
    - intros [v Hv]. apply collect_lookup in Hv; [|rewrite keys; apply NoDup_seq].
      rewrite waves_packets_eq in Hv. apply elem_of_list_fmap in Hv as (s' & [= -> ->] & Hs').
      apply elem_of_seq in Hs'. lia.
    - intros Hs. rewrite pkts_lookup by lia. eauto.
  Qed.

  Lemma last_bytes : last_wave_bytes K (N.of_nat (n - 1)) (collect (waves_packets K P M enc pt))
                     = N.of_nat (length (cs (n - 1))).
  Proof.
    unfold last_wave_bytes. f_equal.
    set (f := fun kv : nat * list N => if (N.of_nat (wave_of K kv.1) =? N.of_nat (n - 1))%N then length kv.2 else 0).
    assert (Hp : forall a b, a ≡ₚ b -> sum_list_with f a = sum_list_with f b) by (induction 1; cbn; lia).
    rewrite (Hp _ _ (map_to_list_collect (waves_packets K P M enc pt) ltac:(rewrite keys; apply NoDup_seq))).
    rewrite waves_packets_eq. unfold needed. rewrite seq_app, fmap_app.
    assert (Happ : forall a b, sum_list_with f (a ++ b) = sum_list_with f a + sum_list_with f b)
      by (intros a b; induction a; cbn; lia).
    rewrite Happ.
    assert (Hz : forall l, Forall (fun s => s < (n - 1) * K) l ->
              sum_list_with f ((fun s => (s, payload s)) <$> l) = 0).
    { induction 1 as [|s l Hs Hl IH]; [done|]. cbn [fmap list_fmap sum_list_with]. 
      rewrite IH. unfold f. cbn [fst snd]. unfold wave_of.
      assert (s / K < n - 1) by (apply Nat.div_lt_upper_bound; lia).
      destruct (N.eqb_spec (N.of_nat (s / K)) (N.of_nat (n - 1))); lia. }
    rewrite Hz by (apply Forall_forall; intros s Hs; apply elem_of_seq in Hs; lia).
    cbn [Nat.add].
    assert (Hc : cnt (n - 1) <= K /\ length (cs (n - 1)) <= cnt (n - 1) * P).
    { destruct (nchunks_spec P (length (cs (n - 1))) HP) as (H1 & H2 & _). unfold cnt.
      specialize (H2 ltac:(lia)). split; [nia|done]. }
    destruct Hc as [Hc1 Hc2].
    rewrite <- block by done.
    transitivity (sum_list (slen P (length (cs (n - 1))) <$> seq 0 (cnt (n - 1)))).
    - assert (Hg : forall l, Forall (fun i => i < K) l ->
         sum_list_with f ((fun i => ((n - 1) * K + i, take P (drop (i * P) (cs (n - 1))))) <$> l)
         = sum_list (slen P (length (cs (n - 1))) <$> l)).
      { induction 1 as [|i l Hi Hl IH]; [done|]. cbn [fmap list_fmap sum_list_with sum_list].
        rewrite IH. unfold f at 1. cbn [fst snd]. unfold wave_of.
        destruct (coords_div0 K (n - 1) i Hi) as [-> _]. rewrite N.eqb_refl, length_slice. done. }
      apply Hg. apply Forall_forall. intros i Hi. apply elem_of_seq in Hi. lia.
    - rewrite sum_slen. lia.
  Qed.
End tx.
