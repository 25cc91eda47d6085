From Coq Require Import ZifyBool ZifyNat ZifyN.
From stdpp Require Import prelude.
From Verif Require Import Types_Model.
Local Open Scope N_scope.

Lemma cp_round_trip p : cp_unpack (cp_pack p) = Some p.
Proof. destruct p as [[] [] []]; reflexivity. Qed.

Lemma cp_try_round_trip p : validate_crypto_params p = true -> cp_try_from (cp_pack p) = Some p.
Proof. intros H. unfold cp_try_from. rewrite cp_round_trip, H. done. Qed.

Lemma cp_pack_byte p : cp_pack p < 256.
Proof. destruct p as [[] [] []]; reflexivity. Qed.

Definition byte_ok (b : N) : bool :=
  match cp_try_from b with
  | Some p => (cp_pack p =? b) && validate_crypto_params p
  | None => true
  end.

Lemma bytes_all (f : N -> bool) :
  forallb f (N.of_nat <$> seq 0 256) = true -> forall b, b < 256 -> f b = true.
Proof.
  intros H b Hb. rewrite forallb_forall in H. apply H. apply elem_of_list_In.
  apply elem_of_list_fmap. exists (N.to_nat b). split; [lia|]. apply elem_of_seq. lia.
Qed.

Lemma cp_byte_exact b : b < 256 ->
  match cp_try_from b with
  | Some p => cp_pack p = b /\ validate_crypto_params p = true
  | None => forall p, validate_crypto_params p = true -> cp_pack p <> b
  end.
Proof.
  intros Hb. pose proof (bytes_all byte_ok ltac:(vm_compute; reflexivity) b Hb) as H.
  unfold byte_ok in H. destruct (cp_try_from b) eqn:E.
  - apply andb_true_iff in H as [H1 H2]. split; [by apply N.eqb_eq|done].
  - intros p Hp <-. rewrite cp_try_round_trip in E by done. done.
Qed.

Lemma hybrid_needs_signature p :
  validate_crypto_params p = true <-> (cp_enc p = MlKemHybrid -> cp_sig p <> SigNone).
Proof. destruct p as [[] [] []]; cbn; split; intros H; try done; exfalso; by apply H. Qed.

Lemma sl_round_trip v : v < 256 -> sl_value (sl_from v) = v.
Proof. intros _. unfold sl_from. destruct v as [|[[[]|[]|]|[[]|[]|]|]]; reflexivity. Qed.

Lemma sl_round_trip_value s : sl_value (sl_from (sl_value s)) = sl_value s.
Proof. destruct s as [| | | | |v]; try reflexivity. cbn. unfold sl_from. destruct v as [|[[[]|[]|]|[[]|[]|]|]]; reflexivity. Qed.

Lemma sl_from_inj v w : sl_from v = sl_from w -> v = w.
Proof.
  intros H. apply (f_equal sl_value) in H.
  assert (forall u, sl_value (sl_from u) = u) as Hr.
  { intros u. unfold sl_from. destruct u as [|[[[]|[]|]|[[]|[]|]|]]; reflexivity. }
  by rewrite !Hr in H.
Qed.

Lemma sl_for_value_spec v :
  (v < 256 -> exists s, sl_for_value v = Some s /\ sl_value s = v) /\
  (256 <= v -> sl_for_value v = None).
Proof.
  unfold sl_for_value. split; intros H.
  - exists (sl_from v). destruct (v <? 256) eqn:E; [|apply N.ltb_ge in E; lia]. split; [done|]. by apply sl_round_trip.
  - destruct (v <? 256) eqn:E; [apply N.ltb_lt in E; lia|done].
Qed.

(** const_time_compare *)
Lemma ctc_loop_iters n idx a b c i : (ctc_loop n idx a b c i).2 = (i + n)%nat.
Proof. revert idx c i; induction n as [|n IH]; intros idx c i; cbn [ctc_loop snd]; [lia|]. rewrite IH. lia. Qed.

Fixpoint matches (a b : list N) : nat :=
  match a, b with
  | x :: a', y :: b' => ((if N.eqb x y then 1 else 0) + matches a' b')%nat
  | _, _ => 0%nat
  end.

Lemma ctc_loop_matches n idx a b c i :
  n = (length a - idx)%nat -> (idx <= length a)%nat ->
  (ctc_loop n idx a b c i).1 = (c + matches (drop idx a) (drop idx b))%nat.
Proof.
  revert idx c i; induction n as [|n IH]; intros idx c i Hn Hi; cbn [ctc_loop fst].
  - rewrite (drop_ge a idx) by lia. cbn. lia.
  - destruct (lookup_lt_is_Some_2 a idx ltac:(lia)) as [x Hx].
    rewrite IH by lia. rewrite Hx. rewrite (drop_S _ _ _ Hx).
    destruct (b !! idx) as [y|] eqn:Hy.
    + rewrite (drop_S _ _ _ Hy). cbn [matches]. lia.
    + rewrite (drop_ge b idx) by (by apply lookup_ge_None). rewrite (drop_ge b (S idx)) by (apply lookup_ge_None in Hy; lia).
      cbn. destruct (drop (S idx) a); done.
Qed.

Lemma matches_le a b : (matches a b <= length a)%nat /\ (matches a b <= length b)%nat.
Proof.
  revert b; induction a as [|x a IH]; intros [|y b]; cbn; try lia.
  destruct (IH b). destruct (x =? y); lia.
Qed.

Lemma matches_full a b : matches a b = length a -> matches a b = length b -> a = b.
Proof.
  revert b; induction a as [|x a IH]; intros [|y b]; cbn; try done.
  intros H1 H2. destruct (x =? y) eqn:E; pose proof (matches_le a b); [|lia].
  apply N.eqb_eq in E as ->. f_equal. apply IH; lia.
Qed.

Lemma matches_refl a : matches a a = length a.
Proof. induction a as [|x a IH]; cbn; [done|]. rewrite N.eqb_refl, IH. done. Qed.

Lemma ctc_spec a b :
  ((const_time_compare a b).1 = true <-> a = b) /\ (const_time_compare a b).2 = length a.
Proof.
  unfold const_time_compare.
  pose proof (ctc_loop_matches (length a) 0 a b 0 0 ltac:(lia) ltac:(lia)) as H1.
  pose proof (ctc_loop_iters (length a) 0 a b 0 0) as H2.
  destruct (ctc_loop (length a) 0 a b 0 0) as [count iters]. cbn [fst snd] in *. rewrite !drop_0 in H1. cbn in H1.
  split; [|lia]. rewrite andb_true_iff, !bool_decide_eq_true. subst count. split.
  - intros [Ha Hb]. by apply matches_full.
  - intros ->. by rewrite matches_refl.
Qed.

(** CommandPath *)
Lemma ancestor_iff p q : is_ancestor_of p q = true <-> exists s, q = p ++ s.
Proof.
  unfold is_ancestor_of. rewrite andb_true_iff, !bool_decide_eq_true. split.
  - intros [_ H]. exists (drop (length p) q). rewrite <- H at 1. by rewrite take_drop.
  - intros [s ->]. rewrite app_length, take_app. split; [lia|done].
Qed.

Lemma ancestor_refl p : is_ancestor_of p p = true.
Proof. apply ancestor_iff. exists []. by rewrite app_nil_r. Qed.

Lemma ancestor_antisym p q : is_ancestor_of p q = true -> is_ancestor_of q p = true -> p = q.
Proof.
  rewrite !ancestor_iff. intros [s ->] [u Hu]. apply (f_equal length) in Hu as Hl. rewrite !app_length in Hl.
  assert (s = []) as ->; [|by rewrite app_nil_r]. destruct s; [done|]. cbn in Hl. lia.
Qed.

Lemma ancestor_trans p q r : is_ancestor_of p q = true -> is_ancestor_of q r = true -> is_ancestor_of p r = true.
Proof. rewrite !ancestor_iff. intros [s ->] [u ->]. exists (s ++ u). by rewrite app_assoc. Qed.

Lemma ancestors_linear p q r :
  is_ancestor_of p r = true -> is_ancestor_of q r = true ->
  is_ancestor_of p q = true \/ is_ancestor_of q p = true.
Proof.
  rewrite !ancestor_iff. intros [s Hs] [u Hu]. rewrite Hs in Hu.
  destruct (decide (length p <= length q)%nat) as [H|H].
  - left. exists (drop (length p) q). apply (f_equal (take (length p))) in Hu.
    rewrite take_app, take_app_le in Hu by done. rewrite Hu at 1. by rewrite take_drop.
  - right. exists (drop (length q) p). apply (f_equal (take (length q))) in Hu.
    rewrite take_app, take_app_le in Hu by lia. rewrite <- Hu at 1. by rewrite take_drop.
Qed.

Lemma child_strict p seg :
  is_ancestor_of p (cp_child p seg) = true /\ is_ancestor_of (cp_child p seg) p = false.
Proof.
  split; [apply ancestor_iff; by exists [seg]|].
  apply not_true_iff_false. rewrite ancestor_iff. intros [s Hs]. apply (f_equal length) in Hs.
  unfold cp_child in Hs. rewrite !app_length in Hs. cbn in Hs. lia.
Qed.

(** parsing *)
Definition segment_ok (seg : rstring) : Prop := seg <> [] /\ slash ∉ seg.

Lemma split_slash_nonempty s : split_slash s <> [].
Proof. destruct s as [|c s]; cbn [split_slash]; [done|]. destruct (c =? slash); [done|]. by destruct (split_slash s). Qed.

Lemma split_no_slash s : Forall (fun seg => slash ∉ seg) (split_slash s).
Proof.
  induction s as [|c s IH]; cbn [split_slash].
  - constructor; [|constructor]. apply not_elem_of_nil.
  - destruct (c =? slash) eqn:E.
    + constructor; [apply not_elem_of_nil|done].
    + apply N.eqb_neq in E. destruct (split_slash s) as [|seg segs].
      * constructor; [|constructor]. apply not_elem_of_cons. split; [done|apply not_elem_of_nil].
      * inversion IH; subst. constructor; [|done]. by apply not_elem_of_cons.
Qed.

Lemma parse_segments_ok s : Forall segment_ok (cp_parse s).
Proof.
  unfold cp_parse. apply Forall_forall. intros seg Hs. apply elem_of_list_filter in Hs as [H1 H2].
  split; [done|]. pose proof (split_no_slash s) as H. rewrite Forall_forall in H. by apply H.
Qed.

(** [print p] = each segment preceded by a slash. *)
Definition print (p : command_path) : rstring := concat ((fun seg => slash :: seg) <$> p).

Lemma split_seg_app seg s :
  slash ∉ seg -> split_slash (seg ++ slash :: s) = seg :: split_slash s.
Proof.
  induction seg as [|c seg IH]; intros H; cbn [app split_slash].
  - by rewrite N.eqb_refl.
  - apply not_elem_of_cons in H as [H1 H2]. destruct (c =? slash) eqn:E; [by apply N.eqb_eq in E|].
    by rewrite IH.
Qed.
Lemma split_seg seg : slash ∉ seg -> split_slash seg = [seg].
Proof.
  induction seg as [|c seg IH]; intros H; cbn [split_slash]; [done|].
  apply not_elem_of_cons in H as [H1 H2]. destruct (c =? slash) eqn:E; [by apply N.eqb_eq in E|].
  by rewrite IH.
Qed.

Lemma split_print seg p :
  Forall (fun s => slash ∉ s) (seg :: p) -> split_slash (seg ++ print p) = seg :: p.
Proof.
  revert seg; induction p as [|q p IH]; intros seg H; inversion H as [|? ? H1 H2]; subst.
  - unfold print. cbn. rewrite app_nil_r. by apply split_seg.
  - unfold print. cbn. rewrite split_seg_app by done. f_equal. by apply IH.
Qed.

Lemma parse_print p : Forall segment_ok p -> cp_parse (print p) = p.
Proof.
  intros H. unfold cp_parse.
  assert (split_slash (print p) = [] :: p \/ p = []) as [Hs|Hs].
  { destruct p as [|a p]; [by right|left].
    change (print (a :: p)) with ([] ++ print (a :: p)). apply split_print. constructor; [apply not_elem_of_nil|].
    eapply Forall_impl; [exact H|]. by intros x [? ?]. }
  - rewrite Hs. rewrite filter_cons_False by tauto. clear Hs.
    induction H as [|x l [Hx _] Hl IH]; [done|]. rewrite filter_cons_True by done. by f_equal.
  - subst. reflexivity.
Qed.

Lemma parse_idempotent s : cp_parse (print (cp_parse s)) = cp_parse s.
Proof. apply parse_print, parse_segments_ok. Qed.
