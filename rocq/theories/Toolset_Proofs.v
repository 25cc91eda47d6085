From Coq Require Import ZifyBool ZifyNat ZifyN.
From stdpp Require Import prelude.
From Verif Require Import Toolset_Model Toolset_Spec.
Local Open Scope N_scope.
Ltac Zify.zify_post_hook ::= Z.div_mod_to_equations.

Global Instance dereg_result_eq_dec : EqDecision dereg_result.
Proof. solve_decision. Defined.

Section proofs.
Context {K : Type} (MAX : nat) (HMAX : (2 <= MAX)%nat).
Implicit Types (t : toolset K).

(** [inst]: installed so far; [d]: number dropped. *)
Record Inv (cid v0 : N) (aux : ratchet K) (t : toolset K) (inst : list (ratchet K)) (d : nat) : Prop := {
  i_map : ts_map t = rev (drop d inst);
  i_d : (d < length inst)%nat;
  i_cid : ts_cid t = cid;
  i_old : ts_oldest t = version_of v0 d;
  i_new : ts_most_recent t = version_of v0 (length inst - 1);
  i_aux : ts_static_aux t = aux;
  i_ver : forall i r, inst !! i = Some r -> i <> 0%nat -> r_version r = version_of v0 i /\ r_cid r = cid;
}.

Lemma inst_len_map cid v0 aux t inst d : Inv cid v0 aux t inst d -> length (ts_map t) = (length inst - d)%nat.
Proof. intros H. rewrite (i_map _ _ _ _ _ _ H), rev_length, drop_length. done. Qed.

Lemma update_none_same t r t' : update_from MAX t r = (None, t') -> t' = t.
Proof.
  unfold update_from. destruct (negb (r_cid r =? ts_cid t)); [by intros [= <-]|].
  destruct (negb _); [by intros [= <-]|]. by destruct (append_ratchet MAX t r).
Qed.

Lemma update_some_inv cid v0 aux t inst d r st t' :
  r_version r < 2 ^ 32 ->
  Inv cid v0 aux t inst d -> update_from MAX t r = (Some st, t') ->
  Inv cid v0 aux t' (inst ++ [r]) d.
Proof.
  intros Hr HI. pose proof (inst_len_map _ _ _ _ _ _ HI) as Hl. destruct HI as [H1 H2 H3 H4 H5 H6 H7].
  unfold update_from.
  destruct (r_cid r =? ts_cid t) eqn:E1; [|done]. cbn [negb].
  destruct (ts_most_recent t =? wsub1 (r_version r)) eqn:E2; [|done]. cbn [negb].
  assert (r_version r = version_of v0 (length inst)) as Hv.
  { apply N.eqb_eq in E2. rewrite H5 in E2. unfold wsub1, version_of in *. lia. }
  intros E. assert (t' = mk_toolset (ts_cid t) (r_version r) (ts_oldest t) (r :: ts_map t) (ts_static_aux t)) as ->.
  { unfold append_ratchet in E. cbn [ts_map] in E. case_bool_decide; injection E as <- <-; done. }
  constructor; cbn [ts_map ts_cid ts_oldest ts_most_recent ts_static_aux]; try done.
  - rewrite H1, drop_app_le by lia. rewrite rev_unit. done.
  - rewrite app_length. cbn. lia.
  - rewrite Hv, app_length. cbn. f_equal. lia.
  - intros i q Hq Hi. apply lookup_app_Some in Hq as [Hq|[Hq1 Hq2]]; [by apply H7|].
    apply list_lookup_singleton_Some in Hq2 as [Hq2 <-]. assert (i = length inst) as -> by lia.
    split; [done|]. apply N.eqb_eq in E1. congruence.
Qed.

Lemma rev_drop_S {A} (d : nat) (l : list A) :
  (d < length l)%nat -> removelast (rev (drop d l)) = rev (drop (S d) l).
Proof.
  intros H. destruct (lookup_lt_is_Some_2 l d H) as [x Hx].
  rewrite (drop_S _ _ _ Hx). cbn [rev]. by rewrite removelast_last.
Qed.

Lemma dereg_not_ok_same t v x t' :
  deregister_oldest_ratchet MAX t v = (x, t') -> x <> DeregOk -> t' = t.
Proof.
  unfold deregister_oldest_ratchet. case_bool_decide; [by intros [= <- <-]|].
  destruct (negb _); [by intros [= <- <-]|]. destruct (pop_back _); by intros [= <- <-].
Qed.

Lemma dereg_ok_inv cid v0 aux t inst d v t' :
  Inv cid v0 aux t inst d -> deregister_oldest_ratchet MAX t v = (DeregOk, t') ->
  Inv cid v0 aux t' inst (S d) /\ v = version_of v0 d /\ (MAX <= length inst - d)%nat.
Proof.
  intros HI. pose proof (inst_len_map _ _ _ _ _ _ HI) as Hl. destruct HI as [H1 H2 H3 H4 H5 H6 H7].
  unfold deregister_oldest_ratchet. case_bool_decide as Hb; [done|].
  destruct (ts_oldest t =? v) eqn:E; [|done]. cbn [negb]. apply N.eqb_eq in E.
  destruct (pop_back (ts_map t)) as [m|] eqn:Ep; [|done]. intros [= <-].
  assert (m = rev (drop (S d) inst)) as ->.
  { rewrite <- rev_drop_S by done. rewrite <- H1. unfold pop_back in Ep. by destruct (ts_map t); [|injection Ep]. }
  split; [|split; [congruence|lia]].
  constructor; cbn [ts_map ts_cid ts_oldest ts_most_recent ts_static_aux]; try done; try lia.
  rewrite H4. unfold wadd1, version_of. lia.
Qed.

Lemma dereg_exact cid v0 aux t inst d v :
  Inv cid v0 aux t inst d ->
  (exists t', deregister_oldest_ratchet MAX t v = (DeregOk, t')) <->
  v = version_of v0 d /\ (MAX <= length inst - d)%nat.
Proof.
  intros HI. split.
  - intros [t' Ht]. by destruct (dereg_ok_inv _ _ _ _ _ _ _ _ HI Ht) as (_ & ? & ?).
  - intros [-> Hm]. pose proof (inst_len_map _ _ _ _ _ _ HI) as Hl.
    unfold deregister_oldest_ratchet. rewrite bool_decide_eq_false_2 by lia.
    rewrite (i_old _ _ _ _ _ _ HI), N.eqb_refl. cbn [negb].
    destruct (ts_map t) as [|a l] eqn:Em; [cbn in Hl; lia|]. cbn [pop_back]. by eexists.
Qed.

Definition u32_op (o : op K) : Prop := match o with Update r => r_version r < 2 ^ 32 | Truncate _ => True end.

Lemma run_inv cid v0 aux ops t inst d :
  Forall u32_op ops ->
  Inv cid v0 aux t inst d ->
  let h := zip ops (run MAX t ops).1 in
  Inv cid v0 aux (run MAX t ops).2 (installed inst h) (d + truncations h).
Proof.
  revert t inst d; induction ops as [|o ops IH]; intros t inst d Hu HI.
  - cbn. by rewrite Nat.add_0_r.
  - inversion Hu as [|? ? Hu1 Hu2]; subst. cbn [run]. destruct (step MAX t o) as [x t1] eqn:E.
    specialize (IH t1). destruct (run MAX t1 ops) as [xs t2] eqn:E2. cbn [fst snd zip zip_with] in *.
    destruct o as [r|v]; cbn [step] in E.
    + destruct (update_from MAX t r) as [[st|] t'] eqn:Eu; injection E as <- <-; cbn [installed truncations].
      * apply IH; [done|]. eapply update_some_inv; eauto.
      * apply update_none_same in Eu as ->. by apply IH.
    + destruct (deregister_oldest_ratchet MAX t v) as [x' t'] eqn:Eu; injection E as <- <-.
      destruct (decide (x' = DeregOk)) as [->|Hn].
      * cbn [installed truncations]. destruct (dereg_ok_inv _ _ _ _ _ _ _ _ HI Eu) as [HI' _].
        specialize (IH _ _ Hu2 HI'). by rewrite Nat.add_succ_r.
      * apply (dereg_not_ok_same t v x' t' Eu) in Hn as Ht. subst t'.
        destruct x'; [done| | |]; cbn [installed truncations]; by apply IH.
Qed.

Lemma inv_new cid v0 aux r : v0 < 2 ^ 32 -> Inv cid v0 aux (mk_toolset cid v0 v0 [r] aux) [r] 0.
Proof.
  intros Hv. constructor; cbn; try done; try lia; try (unfold version_of; lia).
  intros i q Hq Hi. destruct i; [done|]. done.
Qed.

Lemma lookup_rev_drop {A} (l : list A) d k :
  (d + k < length l)%nat -> rev (drop d l) !! k = l !! (length l - 1 - k)%nat.
Proof.
  intros H. rewrite rev_alt. change (rev_append (drop d l) []) with (reverse (drop d l)).
  rewrite reverse_lookup; [|rewrite drop_length; lia].
  rewrite drop_length, lookup_drop. f_equal. lia.
Qed.

Lemma get_nth_lookup {A} (l : list A) (i : N) : get_nth l i = l !! N.to_nat i.
Proof.
  revert i; induction l as [|x l IH]; intros i; [by rewrite lookup_nil|].
  cbn [get_nth]. destruct (i =? 0) eqn:E.
  - apply N.eqb_eq in E as ->. done.
  - apply N.eqb_neq in E. rewrite IH. replace (N.to_nat i) with (S (N.to_nat (i - 1))) by lia. done.
Qed.

Lemma lookup_exact cid v0 aux t inst d v :
  v < 2 ^ 32 ->
  Inv cid v0 aux t inst d -> N.of_nat (length inst - d) <= 2 ^ 32 ->
  forall r, get_ratchet t v = Some r <->
    exists i, (d <= i)%nat /\ inst !! i = Some r /\ v = version_of v0 i.
Proof.
  intros Hv HI Hb r. unfold get_ratchet. rewrite get_nth_lookup, (i_map _ _ _ _ _ _ HI), (i_new _ _ _ _ _ _ HI).
  pose proof (i_d _ _ _ _ _ _ HI) as Hd.
  set (n := length inst) in *. set (k := N.to_nat (wsub (version_of v0 (n - 1)) v)).
  assert (N.of_nat k < 2 ^ 32) as Hk by (unfold k, wsub; lia).
  assert (version_of v0 (n - 1) = (v + N.of_nat k) mod 2 ^ 32) as Hkv.
  { unfold k, wsub, version_of. rewrite N2Nat.id. lia. }
  split.
  - intros Hl. assert (k < n - d)%nat as Hkn.
    { apply lookup_lt_Some in Hl. rewrite rev_length, drop_length in Hl. done. }
    rewrite lookup_rev_drop in Hl by lia. exists (n - 1 - k)%nat. split; [lia|]. split; [done|].
    unfold version_of in *. lia.
  - intros (i & Hi1 & Hi2 & Hi3).
    assert (i < n)%nat as Hin by (by apply lookup_lt_Some in Hi2).
    assert (k = n - 1 - i)%nat as ->.
    { subst v. unfold version_of in Hkv. lia. }
    rewrite lookup_rev_drop by lia. rewrite <- Hi2. f_equal. fold n. lia.
Qed.

Lemma endpoints cid v0 aux t inst d :
  Inv cid v0 aux t inst d ->
  get_most_recent_ratchet t = last inst /\ get_oldest_ratchet t = inst !! d.
Proof.
  intros HI. pose proof (i_d _ _ _ _ _ _ HI) as Hd. unfold get_most_recent_ratchet, get_oldest_ratchet.
  rewrite (i_map _ _ _ _ _ _ HI). split.
  - rewrite <- (take_drop d inst) at 2.
    destruct (drop d inst) as [|a l] eqn:E using rev_ind.
    + apply (f_equal length) in E. rewrite drop_length in E. cbn in E. lia.
    + rewrite rev_unit. cbn. by rewrite app_assoc, last_snoc.
  - destruct (lookup_lt_is_Some_2 _ _ Hd) as [x Hx]. rewrite (drop_S _ _ _ Hx), Hx. cbn [rev].
    by rewrite last_snoc.
Qed.

(** Discipline: the history never exceeds its capacity. *)
Lemma sync_step cid v0 aux t inst d r :
  r_version r < 2 ^ 32 ->
  Inv cid v0 aux t inst d -> (length inst - d < MAX)%nat ->
  let '(res, t') := update_and_sync MAX t r in
  (res = None \/ res = Some DeregOk) /\
  exists inst' d', Inv cid v0 aux t' inst' d' /\ (length inst' - d' < MAX)%nat.
Proof.
  intros Hr HI Hlt. unfold update_and_sync.
  destruct (update_from MAX t r) as [[st|] t'] eqn:Eu.
  2:{ apply update_none_same in Eu as ->. split; [by left|]. eauto. }
  pose proof (update_some_inv _ _ _ _ _ _ _ _ _ Hr HI Eu) as HI'.
  pose proof (inst_len_map _ _ _ _ _ _ HI') as Hl'. pose proof (i_d _ _ _ _ _ _ HI').
  pose proof (inst_len_map _ _ _ _ _ _ HI) as Hl. pose proof (i_d _ _ _ _ _ _ HI).
  assert (st = (if bool_decide (MAX <= length (ts_map t'))%nat then CommittedNeedsSynchronization (r_version r) (ts_oldest t') else Committed (r_version r))) as ->.
  { unfold update_from in Eu. do 2 (destruct (negb _); [done|]). unfold append_ratchet in Eu. cbn [ts_map ts_oldest] in Eu.
    case_bool_decide as Hbd; injection Eu as <- <-; cbn [ts_map ts_oldest];
      [rewrite bool_decide_eq_true_2 by done|rewrite bool_decide_eq_false_2 by done]; done. }
  case_bool_decide as Hb.
  - rewrite (i_old _ _ _ _ _ _ HI').
    assert (MAX <= length (inst ++ [r]) - d)%nat as Hm by lia.
    destruct (proj2 (dereg_exact _ _ _ _ _ _ (version_of v0 d) HI') (conj eq_refl Hm)) as [t'' Ht].
    rewrite Ht. split; [by right|]. exists (inst ++ [r]), (S d).
    destruct (dereg_ok_inv _ _ _ _ _ _ _ _ HI' Ht) as [HI'' _]. split; [done|].
    rewrite app_length. cbn. lia.
  - split; [by left|]. exists (inst ++ [r]), d. split; [done|]. lia.
Qed.

Lemma sync_run cid v0 aux rs t inst d :
  Forall (fun r => r_version r < 2 ^ 32) rs ->
  Inv cid v0 aux t inst d -> (length inst - d < MAX)%nat ->
  let t' := fold_left (fun t r => (update_and_sync MAX t r).2) rs t in
  (length (ts_map t') < MAX)%nat.
Proof.
  revert t inst d; induction rs as [|r rs IH]; intros t inst d Hf HI Hlt; cbn [fold_left].
  - by rewrite (inst_len_map _ _ _ _ _ _ HI).
  - inversion Hf; subst. pose proof (sync_step _ _ _ _ _ _ r ltac:(done) HI Hlt) as Hs.
    destruct (update_and_sync MAX t r) as [res t']. destruct Hs as [_ (inst' & d' & HI' & Hlt')].
    cbn [snd]. by eapply IH.
Qed.
End proofs.
