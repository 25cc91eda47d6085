(** C83: SecrecyMode::Perfect, every message under a key of its own. *)
From Coq Require Import ZifyBool ZifyNat ZifyN.
From stdpp Require Import prelude gmap.
From Coq Require Import Sorted.
From Verif Require Import Rekey_Model Rekey_Spec Rekey_Proofs Perfect_Spec Perfect_Proofs.
Local Open Scope N_scope.

(** "In Perfect mode no two messages of an end are protected by the same version." *)
Definition C83_statement : Prop := ∀ (MAX : nat) r es s,
  (3 ≤ MAX)%nat → start_ring MAX r → Forall prompt es → NoDup (versions MAX r s es).

(** False.  The initiator has passed the last check of its trigger when a re-key of the other end completes; its message
    leaves under the new version, and so does the next one. *)
Definition ring0 : keyring := mk_keyring 0 [(0, 0)].
Definition to_ready (s : bool) : list revent := [Start s false; Construct s; ReadLatest s; Declare s].
Definition overtaken : list revent :=
  to_ready true ++ to_ready false ++ [Send false; Deliver true; Deliver false; Deliver true; Send true;
    Deliver false; Deliver false] ++ to_ready true ++ [Send true].
Lemma overtaken_versions : versions 6 ring0 true overtaken = [1; 1] ∧ versions_named 6 ring0 true overtaken = [0; 1].
Proof. by vm_compute. Qed.
Lemma overtaken_prompt : Forall prompt overtaken.
Proof. by repeat constructor. Qed.
Theorem C83_refuted : ¬ C83_statement.
Proof.
  intros H. assert (Hr : start_ring 6 ring0) by (unfold start_ring; cbn; lia).
  specialize (H 6%nat ring0 overtaken true ltac:(lia) Hr overtaken_prompt).
  rewrite (proj1 overtaken_versions) in H. inversion H as [|? ? Hn _]; subst. apply Hn. by left.
Qed.

Section props.
Context (MAX : nat) (HMAX : (3 ≤ MAX)%nat).

(** What holds: the versions the messages name increase strictly, in every run without timeouts; *)
Theorem C83_named_partial r es s :
  start_ring MAX r → Forall prompt es → StronglySorted N.lt (versions_named MAX r s es).
Proof using HMAX.
  intros Hr Hp. apply (named_sorted MAX HMAX es []); [by apply inv_init|done| |constructor].
  split; [|done]. intros u Hu. by apply elem_of_nil in Hu.
Qed.

(** and they are the versions used, when nothing comes between the last check of a trigger and its message.  Missing:
    triggers that are overtaken there, and timeouts. *)
Theorem C83_partial r es s :
  start_ring MAX r → Forall prompt es → at_once s es →
  StronglySorted N.lt (versions MAX r s es) ∧ NoDup (versions MAX r s es).
Proof using HMAX.
  intros Hr Hp Ha.
  assert (E : versions MAX r s es = versions_named MAX r s es).
  { apply (used_named MAX HMAX); [by apply inv_init|done..]. }
  rewrite E. assert (Hs := C83_named_partial r es s Hr Hp). split; [done|]. by apply (sorted_nodup MAX HMAX).
Qed.
End props.

(** Both ends send a message at the same time, then the initiator another one. *)
Definition both : list revent :=
  to_ready true ++ [Send true] ++ to_ready false ++ [Send false; Deliver true; Deliver false; Deliver false; Deliver true;
    Deliver false; Deliver true; Deliver false; Deliver true] ++ to_ready true ++ [Send true].
Example C83_ex :
  versions 6 ring0 true both = [0; 1] ∧ versions 6 ring0 false both = [0] ∧ at_once true both ∧ at_once false both.
Proof. split_and!; try (by vm_compute); cbn; repeat split; intros; try done; eexists; reflexivity. Qed.

Print Assumptions C83_refuted.
Print Assumptions C83_named_partial.
Print Assumptions C83_partial.
