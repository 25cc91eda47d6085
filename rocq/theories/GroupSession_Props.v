(** C23, C55, C56, C57: the session layer of a group. *)
From Coq Require Import ZifyBool ZifyNat ZifyN.
From stdpp Require Import prelude gmap.
From Verif Require Import Bytes Tree_Model Tree_Spec TreeSym_Spec TreeMath_Proofs GroupSession_Model GroupSession_Spec GroupSession_Proofs.
Local Open Scope N_scope.

(** C23. Whatever the commit contains: if its epoch is not the successor of the member's, nothing happens;
    and if the member's state changes without an error, its epoch has become the one of the commit. *)
Theorem C23_gate P c cm e g : c_group P c = Some g →
  (e ≠ g_epoch P g + 1 → s_process_commit P c cm e = (c, Ok tt)) ∧
  (∀ c', s_process_commit P c cm e = (c', Ok tt) →
     c' = c ∨ ∃ g', c_group P c' = Some g' ∧ g_epoch P g' = e ∧ e = g_epoch P g + 1).
Proof.
  intros Eg. unfold s_process_commit. rewrite Eg. split.
  - intros He. apply N.eqb_neq in He. by rewrite He.
  - intros c'. destruct (e =? g_epoch P g + 1) eqn:Ee; cbn [negb]; [|intros [= <-]; by left].
    apply N.eqb_eq in Ee. destruct (process_commit P g cm) as [g' r] eqn:E. intros [= <- ->]. right. exists g'.
    split; [done|]. split; [|done]. unfold process_commit in E. destruct (apply_proposals P _ _); [|done].
    destruct (apply_update_path P _ _ _) as [t2 [[rs le]| |]]; try done. injection E as <-. cbn. by rewrite Ee.
Qed.

(** C23. An owner that founds a group and then adds accounts, kicks accounts other than itself and re-keys in any
    order; an account added by the j-th commit, which receives its welcome and the owner's commits in any order,
    any number of times, or never. Its state is then its initial state or the one it would have after receiving,
    once and in order, the welcome and the commits up to some k-th one. *)
Theorem C23_any_delivery P : laws P → ∀ ocid osecret os ems j em js w cid ds,
  Forall (sensible P ocid) os →
  (owner_run P (new_owner P ocid osecret) os).2 = ems → ems !! j = Some em → em_welcome P em = Some (js, w) →
  let init := (new_joiner P cid js).1 in
  member_run P ems w init ds = init ∨
  ∃ k, (j < k <= length ems)%nat ∧ member_run P ems w init ds = member_run P ems w init (in_order j k).
Proof.
  intros L ocid osecret os ems j em js w cid ds Hs E Hj Hw init.
  destruct (owner_trace_ok P L ocid osecret os Hs) as (ems' & W & T). pose proof T as [_ _ _ (g & rest & _ & ER)].
  rewrite ER in E. cbn in E. subst ems'. by eapply any_delivery.
Qed.

(** C23. And in that in-order state, unless one of the commits in between removed its slot, it has the same tree,
    epoch, transcript and secrets as the owner had when it had sent the first k commits. *)
Theorem C23_prefix_agrees P : laws P → ∀ ocid osecret os ems j em js w cid k,
  Forall (sensible P ocid) os →
  (owner_run P (new_owner P ocid osecret) os).2 = ems → ems !! j = Some em → em_welcome P em = Some (js, w) →
  (j < k <= length ems)%nat →
  ∃ g q go,
    member_run P ems w (new_joiner P cid js).1 (in_order j k) = mk_cgka P (Some g) js false ∧
    owner_run P (new_owner P ocid osecret) (take q os) = (mk_cgka P (Some go) osecret true, take k ems) ∧
    ((∀ i, (j < i < k)%nat → ¬ removes P ems i (w_joiner P w)) → same_view P g go ∧ g_epoch P g = N.of_nat k).
Proof.
  intros L ocid osecret os ems j em js w cid k Hs E Hj Hw Hk.
  destruct (owner_trace_ok P L ocid osecret os Hs) as (ems' & W & T). pose proof T as [_ _ _ (g & rest & _ & ER)].
  rewrite ER in E. cbn in E. subst ems'. by eapply in_order_view.
Qed.

(** the epoch sent along with the k-th commit is k+1: the epochs on the wire are the places in the owner's history *)
Theorem C23_epoch_numbers P : laws P → ∀ ocid osecret os ems k em,
  Forall (sensible P ocid) os →
  (owner_run P (new_owner P ocid osecret) os).2 = ems → ems !! k = Some em → em_epoch P em = N.of_nat (S k).
Proof.
  intros L ocid osecret os ems k em Hs E Hk.
  destruct (owner_trace_ok P L ocid osecret os Hs) as (ems' & W & T). pose proof T as [_ Hl _ (g & rest & _ & ER)].
  rewrite ER in E. cbn in E. subst ems'. by apply Hl.
Qed.

Definition ex_rs : nat → nat → rnd sym := λ _ _, tt.
Definition ex_os : list (oop sym) :=
  [OwnAdd sym 71 (TFresh 2) (TFresh 11) ex_rs tt; OwnAdd sym 72 (TFresh 3) (TFresh 12) ex_rs tt;
   OwnRekey sym (TFresh 13) ex_rs; OwnKick sym 99 (TFresh 14) ex_rs; OwnKick sym 71 (TFresh 15) ex_rs;
   OwnAdd sym 74 (TFresh 4) (TFresh 16) ex_rs tt].
Definition ex_ems := (owner_run sym (new_owner sym 70 (TFresh 1)) ex_os).2.
Definition ex_state (j : nat) (js : N) (ds : list dlv) : option (N * N) :=
  match ex_ems !! j with
  | Some em =>
      match em_welcome sym em with
      | Some (_, w) => (λ g, (g_leaf sym g, g_epoch sym g)) <$>
          c_group sym (member_run sym ex_ems w (new_joiner sym 0 (TFresh js)).1 ds)
      | None => None
      end
  | None => None
  end.
(** Five commits (the kick of an unknown account makes none). Account 72 gets commits before its welcome, twice,
    and early: it stops after the third commit, because the fourth came too early. Account 71 gets stuck at the
    fourth commit, which removes it. *)
Example C23_example :
  em_epoch sym <$> ex_ems = [1; 2; 3; 4; 5] ∧
  ex_state 1 3 [DCommit 2; DCommit 1] = None ∧
  ex_state 1 3 [DCommit 2; DWelcome; DCommit 3; DCommit 2; DCommit 2; DCommit 0; DCommit 4] = Some (2, 3) ∧
  ex_state 1 3 [DWelcome; DCommit 2; DCommit 3; DCommit 4; DCommit 3] = Some (2, 5) ∧
  ex_state 1 3 [DWelcome; DCommit 2; DCommit 3; DWelcome] = Some (2, 2) ∧
  ex_state 0 2 [DWelcome; DCommit 1; DCommit 2; DCommit 3; DCommit 3; DCommit 4] = Some (1, 3).
Proof. vm_compute. split_and!; reflexivity. Qed.

(** C55 (false). "A member's group state changes only by what the group's owner sent." The receiving member does
    not know or check who made a commit: one made by another member is accepted, and afterwards the owner's own
    next commit, which carries the same epoch number, is ignored. *)
Definition member_state (j : nat) (js : N) (ds : list dlv) : option (cgka sym) :=
  match ex_ems !! j with
  | Some em =>
      match em_welcome sym em with
      | Some (_, w) => Some (member_run sym ex_ems w (new_joiner sym 0 (TFresh js)).1 ds)
      | None => None
      end
  | None => None
  end.
(** two members after the third commit; the first of them commits although it is not the owner *)
Definition rogue : option (commit (pub sym) (ctext sym) * cgka sym) :=
  match member_state 0 2 [DWelcome; DCommit 1; DCommit 2], member_state 1 3 [DWelcome; DCommit 2] with
  | Some a, Some b =>
      match c_group sym a with
      | Some g => match commit_update sym g (TFresh 21) ex_rs with (_, Ok c) => Some (c, b) | _ => None end
      | None => None
      end
  | _, _ => None
  end.
Theorem C55_refuted :
  match rogue, ex_ems !! 3%nat with
  | Some (c, b), Some em =>
      let b' := (s_process_commit sym b c 4).1 in
      (s_process_commit sym b c 4).2 = Ok tt ∧ g_epoch sym <$> c_group sym b = Some 3 ∧ g_epoch sym <$> c_group sym b' = Some 4 ∧
      em_epoch sym em = 4 ∧
      (* the owner's commit would have been applied before, and is ignored now *)
      (s_process_commit sym b (em_commit sym em) 4).2 = Ok tt ∧
      g_epoch sym <$> c_group sym (s_process_commit sym b (em_commit sym em) 4).1 = Some 4 ∧
      s_process_commit sym b' (em_commit sym em) 4 = (b', Ok tt)
  | _, _ => False
  end.
Proof. vm_compute. split_and!; reflexivity. Qed.
(** What does hold: the functions that make commits refuse to do so on a state that is not the owner's. *)
Theorem C55_owner_gate_partial P c : c_owner P c = false →
  (∀ kp fresh rs wr, s_add_member P c kp fresh rs wr = (c, Err)) ∧ (∀ i fresh rs, s_remove_member P c i fresh rs = (c, Err)) ∧
  (∀ cid fresh rs, s_remove_by_cid P c cid fresh rs = (c, Err)) ∧ (∀ fresh rs, s_rekey P c fresh rs = (c, Err)).
Proof.
  intros E. unfold s_add_member, s_remove_by_cid, s_remove_member, s_rekey. rewrite E. cbn [negb]. done.
Qed.

(** C56 (false). "A commit that a member rejects does not harm the member: the owner's next commit is applied as if
    the rejected one had never come." The member's copy of the tree is overwritten before the path secrets are
    opened. Here, in a group of four, somebody who knows no secret sends a commit in the name of slot 3 with
    invented keys. The member in slot 2 rejects it, and then also rejects the owner's commit it would have applied. *)
Definition ex4 : cgka sym * list (emitted sym) :=
  owner_run sym (new_owner sym 70 (TFresh 1))
    [OwnAdd sym 71 (TFresh 2) (TFresh 11) ex_rs tt; OwnAdd sym 72 (TFresh 3) (TFresh 12) ex_rs tt;
     OwnAdd sym 73 (TFresh 4) (TFresh 13) ex_rs tt; OwnRekey sym (TFresh 14) ex_rs; OwnRekey sym (TFresh 15) ex_rs].
Definition bogus : commit (pub sym) (ctext sym) :=
  mk_commit [] (mk_update_path 3 (Pk (TFresh 66))
    [mk_path_node (Pk (TFresh 67)) [Box (Pk (TFresh 68)) []]; mk_path_node (Pk (TFresh 69)) [Box (Pk (TFresh 68)) []]] : update_path (pub sym) (ctext sym)).
Theorem C56_refuted :
  match ex4.2 with
  | [_; em1; em2; em3; em4] =>
      match em_welcome sym em1 with
      | Some (_, w) =>
          let c := member_run sym ex4.2 w (new_joiner sym 72 (TFresh 3)).1 [DWelcome; DCommit 2] in
          let c' := (s_process_commit sym c bogus 4).1 in
          (s_process_commit sym c bogus 4).2 = Err ∧
          (s_process_commit sym c (em_commit sym em3) (em_epoch sym em3)).2 = Ok tt ∧
          (s_process_commit sym c' (em_commit sym em3) (em_epoch sym em3)).2 = Err ∧
          g_epoch sym <$> c_group sym (member_run sym ex4.2 w c' [DCommit 3; DCommit 4]) = Some 3
      | None => False
      end
  | _ => False
  end.
Proof. vm_compute. split_and!; reflexivity. Qed.
(** What does hold: the epoch, the secrets and the keys it holds are only changed by an accepted commit. *)
Theorem C56_secrets_kept_partial P c cm e c' r g : s_process_commit P c cm e = (c', r) → r ≠ Ok tt → c_group P c = Some g →
  ∃ g', c_group P c' = Some g' ∧ g_epoch P g' = g_epoch P g ∧ g_secrets P g' = g_secrets P g ∧ g_own P g' = g_own P g ∧
    g_transcript P g' = g_transcript P g ∧ g_leaf P g' = g_leaf P g ∧ g_send P g' = g_send P g.
Proof.
  intros E Hr Eg. unfold s_process_commit in E. rewrite Eg in E. destruct (negb _); [by injection E as <- <-|].
  destruct (process_commit P g cm) as [g' r'] eqn:Ep. injection E as <- <-. exists g'. split; [done|].
  unfold process_commit in Ep. destruct (apply_proposals P _ _); [|by injection Ep as <- <-].
  destruct (apply_update_path P _ _ _) as [t2 [[rs le]| |]]; by injection Ep as <- <-.
Qed.

(** C57 (false). "Processing a commit always ends, with success or an error." In a group of two, a commit that claims
    to come from slot 2 makes the climb towards the root leave the tree and never come back. *)
#[local] Transparent nd.
Lemma climb_for_ever fuel w k : w <= nd k 0 → parent_loop fuel w (nd k 0) = None.
Proof.
  revert k. induction fuel as [|f IH]; intros k Hk; cbn [parent_loop]; replace (nd k 0 <? w) with false by (symmetry; by apply N.ltb_ge); [done|].
  rewrite parent_step_nd. apply IH. etrans; [exact Hk|]. change (0 / 2) with 0. unfold nd.
  pose proof (N.pow_le_mono_r 2 k (k + 1) ltac:(lia) ltac:(lia)). pose proof (pow_pos k). lia.
Qed.
Definition ex2 : cgka sym * list (emitted sym) :=
  owner_run sym (new_owner sym 70 (TFresh 1)) [OwnAdd sym 71 (TFresh 2) (TFresh 11) ex_rs tt].
Definition outside : commit (pub sym) (ctext sym) :=
  mk_commit [] (mk_update_path 2 (Pk (TFresh 66)) [] : update_path (pub sym) (ctext sym)).
Theorem C57_refuted :
  (∀ fuel, parent_loop fuel (node_width 2) (parent_step (leaf_to_node 2)) = None) ∧
  match ex2.2 with
  | [em] =>
      match em_welcome sym em with
      | Some (_, w) =>
          let c := member_run sym ex2.2 w (new_joiner sym 71 (TFresh 2)).1 [DWelcome] in
          num_leaves sym <$> (g_tree sym <$> c_group sym c) = Some 2 ∧
          (s_process_commit sym c outside 2).2 = Panic
      | None => False
      end
  | _ => False
  end.
Proof.
  split; [|vm_compute; split_and!; reflexivity].
  intros [|fuel]; [reflexivity|]. change (parent_step (leaf_to_node 2)) with 5. cbn [parent_loop].
  change (5 <? node_width 2) with false. cbv iota. change (parent_step 5) with (nd 2 0). apply climb_for_ever. vm_compute. discriminate.
Qed.
(** What does hold: every commit made by the protocol's own functions is processed (C21). *)

(** C58 (false). "If adding an account fails, the group goes on as before." The new leaf is put into the owner's tree
    before its key is used. A key package whose key the KEM cannot use makes the add fail, and after that every other
    add and every re-key fails too. *)
Definition badsym : prims :=
  mk_prims term pkey box N unit
    TDerive Pk (fun _ k m => match k with Pk TZero => None | _ => Some (Box k m) end)
    (fun s b => let 'Box (Pk s') m := b in if bool_decide (s = s') then Some m else None)
    TZero 0 (fun h _ => h + 1) TKdf TExpand
    (fun _ _ _ m => m) (fun _ _ _ m => Some m).
Definition bad_rs : nat → nat → rnd badsym := λ _ _, tt.
Definition ex_owner : cgka badsym :=
  (owner_run badsym (new_owner badsym 70 (TFresh 1)) [OwnAdd badsym 71 (TFresh 2) (TFresh 11) bad_rs tt]).1.
Theorem C58_refuted :
  let add c kp := s_add_member badsym c kp (TFresh 12) bad_rs tt in
  let bad := mk_leaf 72 (Pk TZero) 0 : leaf_node (pub badsym) in
  let good := key_package badsym 73 (TFresh 4) in
  let c' := (add ex_owner bad).1 in
  (add ex_owner bad).2 = Err ∧
  (match (add ex_owner good).2 with Ok _ => True | _ => False end) ∧ (add c' good).2 = Err ∧
  (match (s_rekey badsym ex_owner (TFresh 13) bad_rs).2 with Ok _ => True | _ => False end) ∧
  (s_rekey badsym c' (TFresh 13) bad_rs).2 = Err.
Proof. vm_compute. split_and!; done. Qed.

(** The part of C58 that holds: with the laws of the primitives, as long as every key package the owner used is honest
    (its key is the public key of some secret), an add of an honest key package and a re-key always succeed, whatever the
    owner has done before. Missing: key packages with any other key (see C58_refuted). *)
Theorem C58_partial P : laws P → ∀ ocid s0 os, Forall (sensible P ocid) os →
  let '(c, ems) := owner_run P (new_owner P ocid s0) os in
  (∀ cid joiner fresh rs wr, ∃ w cm,
     (s_add_member P c (key_package P cid joiner) fresh rs wr).2 = Ok (w, cm, N.of_nat (S (length ems)))) ∧
  (∀ fresh rs, ∃ cm, (s_rekey P c fresh rs).2 = Ok (cm, N.of_nat (S (length ems)))).
Proof.
  intros L ocid s0 os Hs. destruct (owner_trace_ok P L ocid s0 os Hs) as (ems & W & [T1 _ _ (g & rest & EW & ER)]).
  rewrite ER. pose proof (T1 _ (Nat.le_refl _)) as HW. rewrite EW in HW. exact (owner_sends P L _ _ _ _ _ HW).
Qed.
(** After the history of C23_example (five commits) an add and a re-key carry epoch 6. *)
Example C58_example :
  let c := (owner_run sym (new_owner sym 70 (TFresh 1)) ex_os).1 in
  (match (s_add_member sym c (key_package sym 75 (TFresh 5)) (TFresh 21) ex_rs tt).2 with Ok (_, _, e) => e =? 6 | _ => false end) = true ∧
  (match (s_rekey sym c (TFresh 22) ex_rs).2 with Ok (_, e) => e =? 6 | _ => false end) = true.
Proof. vm_compute. by split. Qed.
(** An add refused because the caller is not the owner, or has no group, changes nothing. *)
Theorem C58_refused_partial P c kp fresh rs wr : c_owner P c = false ∨ c_group P c = None →
  s_add_member P c kp fresh rs wr = (c, Err).
Proof. unfold s_add_member. intros [E|E]; [by rewrite E|]. rewrite E. by destruct (c_owner P c). Qed.

Print Assumptions C23_gate.
Print Assumptions C23_any_delivery.
Print Assumptions C23_prefix_agrees.
Print Assumptions C23_epoch_numbers.
Print Assumptions C55_refuted.
Print Assumptions C55_owner_gate_partial.
Print Assumptions C56_refuted.
Print Assumptions C56_secrets_kept_partial.
Print Assumptions C57_refuted.
Print Assumptions C58_refuted.
Print Assumptions C58_partial.
Print Assumptions C58_refused_partial.
