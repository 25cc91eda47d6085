(** Big-endian byte strings (Rust's [to_be_bytes], [from_be_bytes], zerocopy [U32]/[U64]/... in
    network order). A byte is an [N] below 256. *)
From Coq Require Import ZifyBool ZifyNat ZifyN.
From stdpp Require Import prelude.
Local Open Scope N_scope.

Notation byte := N (only parsing).
Definition bytes_ok (l : list N) : Prop := Forall (fun b => b < 256) l.

(** [be_enc n v]: the [n] big-endian bytes of [v mod 256^n]. *)
Fixpoint be_enc (n : nat) (v : N) : list N :=
  match n with
  | O => []
  | S n' => be_enc n' (v / 256) ++ [v mod 256]
  end.

Definition be_dec (l : list N) : N := fold_left (fun acc b => acc * 256 + b) l 0.

Fixpoint pow256 (n : nat) : N := match n with O => 1 | S n' => 256 * pow256 n' end.

Lemma be_enc_length n v : length (be_enc n v) = n.
Proof. revert v; induction n as [|n IH]; intros v; cbn; [done|]. rewrite app_length, IH. cbn. lia. Qed.

Lemma be_enc_bytes n v : bytes_ok (be_enc n v).
Proof.
  revert v; induction n as [|n IH]; intros v; cbn; [constructor|].
  apply Forall_app. split; [apply IH|]. constructor; [|constructor]. apply N.mod_lt. lia.
Qed.

Lemma be_dec_snoc l b : be_dec (l ++ [b]) = be_dec l * 256 + b.
Proof. unfold be_dec. by rewrite fold_left_app. Qed.

Lemma pow256_pos n : 0 < pow256 n.
Proof. induction n; cbn [pow256]; lia. Qed.

Lemma be_dec_enc n v : v < pow256 n -> be_dec (be_enc n v) = v.
Proof.
  revert v; induction n as [|n IH]; intros v Hv; cbn [be_enc pow256] in *.
  - cbn. lia.
  - rewrite be_dec_snoc, IH.
    + pose proof (N.div_mod v 256). lia.
    + apply N.div_lt_upper_bound; lia.
Qed.

Lemma be_dec_lt l : bytes_ok l -> be_dec l < pow256 (length l).
Proof.
  induction l as [|b l IH] using rev_ind; intros H; [cbn; lia|].
  apply Forall_app in H as [H1 H2]. inversion H2; subst. rewrite be_dec_snoc, app_length, Nat.add_comm. cbn [length plus pow256].
  specialize (IH H1). lia.
Qed.

Lemma be_enc_dec l : bytes_ok l -> be_enc (length l) (be_dec l) = l.
Proof.
  induction l as [|b l IH] using rev_ind; intros H; [done|].
  apply Forall_app in H as [H1 H2]. inversion H2; subst. rewrite be_dec_snoc, app_length, Nat.add_comm. cbn [length plus be_enc].
  f_equal.
  - rewrite N.div_add_l by lia. rewrite N.div_small by done. rewrite N.add_0_r. by apply IH.
  - f_equal. rewrite N.add_comm, N.mod_add by lia. by apply N.mod_small.
Qed.
