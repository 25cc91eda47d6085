(** C57, the part that holds: commits that name only slots of the tree. *)
From Coq Require Import ZifyBool ZifyNat ZifyN.
From stdpp Require Import prelude gmap.
From Verif Require Import Bytes Tree_Model TreeSym_Spec GroupSession_Model Commit_Spec Commit_Proofs.
Local Open Scope N_scope.

(** For any primitives, any member whose tree has the length of a tree, and any sequence of commits, valid or not, whoever
    made them: if the slots they name are in the tree, each of them is processed, refused or skipped. Missing from C57: slots
    that are not in the tree (see C57_refuted). *)
Theorem C57_partial P c l : well_sized P c → all_name_slots P c l → Panic ∉ (process_all P c l).2.
Proof. apply process_all_total. Qed.
(** The hypothesis holds for a founder, and for whoever joins with a welcome whose tree has the length of a tree; processing
    such commits keeps it. *)
Theorem C57_sizes_partial P :
  (∀ cid s, well_sized P (new_owner P cid s)) ∧
  (∀ cid s w n, sized P n (w_tree P w) → well_sized P (s_join P (new_joiner P cid s).1 w).1) ∧
  (∀ c cm e, well_sized P c → names_slots P c cm → well_sized P (s_process_commit P c cm e).1).
Proof.
  split; [apply founder_sized|]. split.
  - intros cid s w n Hw. apply (joiner_sized _ _ _ n); [|done]. by intros g [=].
  - intros c cm e Hc Hn. by apply (s_process_total P c cm e Hc Hn).
Qed.

(** A member of a tree with three slots refuses four made-up commits in a row: one without path nodes, one that adds slot 6,
    one that removes slot 1 and claims to come from it, one for a slot that is blank now. *)
Definition ex_tree : list (node (pub sym)) :=
  [Leaf (mk_leaf 1 (Pk (TFresh 1)) 0); Blank; Leaf (mk_leaf 2 (Pk (TFresh 2)) 1); Blank; Leaf (mk_leaf 3 (Pk (TFresh 3)) 2)].
Definition ex_member : cgka sym := mk_cgka sym (Some (bootstrap sym ex_tree 0 (TFresh 1) (TFresh 9))) (TFresh 1) false.
Definition junk (i : N) (k : nat) : update_path (pub sym) (ctext sym) :=
  mk_update_path i (Pk (TFresh 66)) (replicate k (mk_path_node (Pk (TFresh 67)) [])).
Definition ex_junk : list (commit (pub sym) (ctext sym) * N) :=
  [(mk_commit [] (junk 2 0), 1); (mk_commit [PAdd (mk_leaf 9 (Pk (TFresh 9)) 0) 6] (junk 6 2), 1);
   (mk_commit [PRemove 1] (junk 1 3), 1); (mk_commit [] (junk 5 3), 1)].
Fixpoint all_name_slotsb (c : cgka sym) (l : list (commit (pub sym) (ctext sym) * N)) : bool :=
  match l with
  | [] => true
  | (cm, e) :: rest =>
      (match c_group sym c with
       | Some g => match slots_after (num_leaves sym (g_tree sym g)) (cm_proposals cm) with Some m => up_leaf (cm_path cm) <? m | None => false end
       | None => true
       end) && all_name_slotsb (s_process_commit sym c cm e).1 rest
  end.
Lemma all_name_slotsb_ok l : ∀ c, all_name_slotsb c l = true → all_name_slots sym c l.
Proof.
  induction l as [|[cm e] l IH]; intros c Hb; [done|]. cbn [all_name_slotsb] in Hb. apply andb_true_iff in Hb as [Hb H2].
  split; [|by apply IH]. intros g Hg. rewrite Hg in Hb. unfold within. destruct (slots_after _ _) as [m|]; [|done]. exists m. split; [done|]. lia.
Qed.
Example C57_example :
  well_sized sym ex_member ∧ all_name_slots sym ex_member ex_junk ∧ (process_all sym ex_member ex_junk).2 = [Err; Err; Err; Err] ∧
  (num_leaves sym ∘ g_tree sym <$> c_group sym (process_all sym ex_member ex_junk).1) = Some 7.
Proof.
  split; [intros g [= <-]; exists 3; split; [lia|done]|]. split; [apply all_name_slotsb_ok; by vm_compute|]. by vm_compute.
Qed.

Print Assumptions C57_partial.
Print Assumptions C57_sizes_partial.
