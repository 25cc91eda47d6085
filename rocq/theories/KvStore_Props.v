(** C171-C174: the key-value store of a connection. *)
From stdpp Require Import prelude gmap.
From Verif Require Import KvStore_Model KvStore_Spec.
Local Open Scope N_scope.

(** ** in memory *)
Definition mem_view (m : mem) (sc : scope) (k : N) : option N :=
  let '(s, p, key) := sc in m !! s ≫= λ b, sub_map b p key !! k.
Lemma sub_put b p key s p' key' : sub_map (put_sub b p key s) p' key' = if decide (p' = p ∧ key' = key) then s else sub_map b p' key'.
Proof.
  unfold sub_map, put_sub. destruct (decide (p' = p)) as [->|Hp].
  - rewrite lookup_insert. cbn. destruct (decide (key' = key)) as [->|Hk].
    + rewrite lookup_insert. cbn. by rewrite decide_True.
    + rewrite lookup_insert_ne by done. rewrite decide_False by naive_solver. done.
  - rewrite lookup_insert_ne by done. rewrite decide_False by naive_solver. done.
Qed.
Lemma sub_remove b p key p' key' :
  sub_map (<[p := delete key (default ∅ (b !! p))]> b) p' key' = if decide (p' = p ∧ key' = key) then ∅ else sub_map b p' key'.
Proof.
  unfold sub_map. destruct (decide (p' = p)) as [->|Hp].
  - rewrite lookup_insert. cbn. destruct (decide (key' = key)) as [->|Hk].
    + rewrite lookup_delete. cbn. by rewrite decide_True.
    + rewrite lookup_delete_ne by done. rewrite decide_False by naive_solver. done.
  - rewrite lookup_insert_ne by done. rewrite decide_False by naive_solver. done.
Qed.
(** the view after a step, at a scope whose session has an account *)
Lemma view_step m o sc k h :
  is_Some (m !! session_of sc) → mem_view m sc k = last_value h sc k → mem_view (mem_step m o).1 sc k = last_value (o :: h) sc k.
Proof.
  destruct sc as [[s p] key]. intros [b Hb] H. cbn in Hb.
  assert (∀ s' p' key' b' g, m !! s' = Some b' →
    mem_view (<[s' := put_sub b' p' key' g]> m) (s, p, key) k =
      if decide ((s', p', key') = (s, p, key)) then g !! k else mem_view m (s, p, key) k) as Hput.
  { intros s' p' key' b' g Hb'. unfold mem_view. destruct (decide (s = s')) as [->|Hs].
    - rewrite lookup_insert. cbn. rewrite sub_put, Hb'. cbn. destruct (decide (p = p' ∧ key = key')) as [[-> ->]|Hn].
      + by rewrite decide_True.
      + rewrite decide_False; [done|]. intros [= -> ->]. by destruct Hn.
    - rewrite lookup_insert_ne by done. rewrite decide_False; [done|]. intros [= -> _ _]. done. }
  assert (∀ k', mem_view m (s, p, key) k' = sub_map b p key !! k') as Hv by (intros k'; unfold mem_view; by rewrite Hb).
  destruct o as [[[s' p'] key'] k'|[[s' p'] key'] k' v|[[s' p'] key'] k'|[[s' p'] key']|[[s' p'] key']]; cbn [mem_step last_value];
    destruct (m !! s') as [b'|] eqn:Eb; cbn [fst].
  - rewrite Hput by done. destruct (decide _) as [[= -> -> ->]|]; [|done]. rewrite <- H, Hv. congruence.
  - done.
  - rewrite Hput by done. destruct (decide ((s', p', key') = (s, p, key))) as [[= -> -> ->]|Hn].
    + destruct (decide (k' = k)) as [->|Hk].
      * rewrite lookup_insert, decide_True by done. done.
      * rewrite lookup_insert_ne by done. rewrite decide_False by (intros [_ ?]; done). rewrite <- H, Hv. congruence.
    + rewrite decide_False by (intros [? _]; done). done.
  - rewrite decide_False; [done|]. intros [[= -> -> ->] _]. congruence.
  - rewrite Hput by done. destruct (decide ((s', p', key') = (s, p, key))) as [[= -> -> ->]|Hn].
    + destruct (decide (k' = k)) as [->|Hk].
      * rewrite lookup_delete, decide_True by done. done.
      * rewrite lookup_delete_ne by done. rewrite decide_False by (intros [_ ?]; done). rewrite <- H, Hv. congruence.
    + rewrite decide_False by (intros [? _]; done). done.
  - rewrite decide_False; [done|]. intros [[= -> -> ->] _]. congruence.
  - rewrite Hput by done. destruct (decide _) as [[= -> -> ->]|]; [|done]. rewrite <- H, Hv. congruence.
  - done.
  - unfold mem_view in *. destruct (decide (s = s')) as [->|Hs].
    + rewrite lookup_insert. cbn. rewrite sub_remove. destruct (decide (p = p' ∧ key = key')) as [[-> ->]|Hn].
      * by rewrite decide_True.
      * rewrite decide_False by (intros [= -> ->]; by destruct Hn). rewrite <- H, Eb. done.
    + rewrite lookup_insert_ne by done. rewrite decide_False by (intros [= -> _ _]; done). done.
  - rewrite decide_False; [done|]. intros [= -> -> ->]. congruence.
Qed.
Lemma account_step m o s : is_Some (m !! s) → is_Some ((mem_step m o).1 !! s).
Proof.
  intros Hs. destruct o as [[[s' p'] key'] k'|[[s' p'] key'] k' v|[[s' p'] key'] k'|[[s' p'] key']|[[s' p'] key']]; cbn [mem_step];
    (destruct (m !! s') as [b'|] eqn:Eb; cbn [fst]; [|done]); (destruct (decide (s = s')) as [->|Hn]; [rewrite lookup_insert; by eexists|by rewrite lookup_insert_ne]).
Qed.
Lemma mem_run_view m os sc :
  m !! session_of sc = Some ∅ → is_Some (mem_run m os !! session_of sc) ∧ ∀ k, mem_view (mem_run m os) sc k = last_value (rev os) sc k.
Proof.
  intros Hm. induction os as [|o os IH] using rev_ind.
  - cbn. split; [by eexists|]. intros k. destruct sc as [[s p] key]. unfold mem_view. cbn in Hm. by rewrite Hm.
  - destruct IH as [H1 H2]. unfold mem_run in *. rewrite foldl_app, rev_app_distr. cbn [foldl rev app].
    split; [by apply account_step|]. intros k. by apply view_step.
Qed.

(** C171: in memory (and so for the file backend), every operation gives the right answer: get what was last set and not removed, set and remove the value
    before, the operations on all keys the whole map; for a session whose account exists. *)
Theorem C171_memory m os o :
  m !! session_of (op_scope o) = Some ∅ → right_answer (rev os) o (mem_step (mem_run m os) o).2.
Proof.
  intros Hm. destruct (mem_run_view m os _ Hm) as [[b Hb] Hv].
  destruct o as [[[s p] key] k|[[s p] key] k v|[[s p] key] k|[[s p] key]|[[s p] key]]; cbn [op_scope session_of fst] in *; cbn [mem_step]; unfold session_of in *; cbn [fst] in *;
    rewrite Hb; cbn [snd right_answer].
  all: try (rewrite <- Hv; unfold mem_view; by rewrite Hb).
  all: intros k; rewrite <- Hv; unfold mem_view; by rewrite Hb.
Qed.
Definition story : list kop :=
  [KSet (1, 0, 9) 5 50; KSet (1, 2, 9) 5 51; KSet (1, 0, 9) 6 60; KSet (1, 0, 9) 5 52; KGetAll (1, 2, 9); KRemove (1, 0, 9) 6; KRemoveAll (1, 2, 9)].
Example C171_example :
  (mem_step (mem_run {[1 := ∅]} story) (KGet (1, 0, 9) 5)).2 = RVal (Some 52) ∧
  (mem_step (mem_run {[1 := ∅]} story) (KGet (1, 0, 9) 6)).2 = RVal None ∧
  (mem_step (mem_run {[1 := ∅]} story) (KGet (1, 2, 9) 5)).2 = RVal None ∧ last_value (rev story) (1, 0, 9) 5 = Some 52.
Proof. by vm_compute. Qed.

(** ** SQL *)
(** C172: so does the SQL backend.  False: set adds a row to those there are, and get returns one of them; with the oldest, get returns for ever
    what was set first. *)
Theorem C172_refuted :
  ¬ (∀ os o, right_answer (rev os) o (sql_step head (sql_run head [] os) o).2).
Proof. intros H. specialize (H [KSet (1, 0, 9) 5 50; KSet (1, 0, 9) 5 52] (KGet (1, 0, 9) 5)). vm_compute in H. discriminate H. Qed.
(** and get disagrees with the map of all keys *)
Example C172_disagree :
  let t := sql_run head [] [KSet (1, 0, 9) 5 50; KSet (1, 0, 9) 5 52] in
  (sql_step head t (KGet (1, 0, 9) 5)).2 = RVal (Some 50) ∧ sql_all t (1, 0, 9) !! 5 = Some 52.
Proof. by vm_compute. Qed.
(** What holds: it does as long as no key is set that has a value, whichever row a SELECT returns. *)
Lemma rows_app t t' sc k : rows_of (t ++ t') sc k = rows_of t sc k ++ rows_of t' sc k.
Proof. unfold rows_of. by rewrite filter_app, fmap_app. Qed.
Lemma rows_filter (P : row → Prop) `{∀ r, Decision (P r)} t sc k :
  (∀ r, row_is sc k r → P r) → rows_of (filter P t) sc k = rows_of t sc k.
Proof.
  intros HP. unfold rows_of. f_equal. induction t as [|r t IH]; [done|]. rewrite !filter_cons.
  destruct (decide (row_is sc k r)) as [Hr|Hr].
  - rewrite decide_True by (by apply HP). rewrite filter_cons_True by done. by rewrite IH.
  - destruct (decide (P r)); [rewrite filter_cons_False by done|]; done.
Qed.
Lemma rows_filter_none (P : row → Prop) `{∀ r, Decision (P r)} t sc k :
  (∀ r, row_is sc k r → ¬ P r) → rows_of (filter P t) sc k = [].
Proof.
  intros HP. unfold rows_of. induction t as [|r t IH]; [done|]. rewrite filter_cons. destruct (decide (P r)) as [Hr|Hr]; [|done].
  rewrite filter_cons_False; [done|]. intros Hk. by apply (HP r).
Qed.
Lemma sql_all_lookup t sc k : sql_all t sc !! k = last (rows_of t sc k).
Proof.
  unfold sql_all. induction t as [|r t IH] using rev_ind; [done|]. rewrite foldl_app, rows_app. cbn [foldl].
  unfold rows_of at 2. rewrite filter_cons, filter_nil. destruct (decide (row_scope r = sc)) as [Hs|Hs].
  - destruct (decide (row_key r = k)) as [Hk|Hk].
    + rewrite decide_True by done. cbn. rewrite last_snoc. rewrite <- Hk. by rewrite lookup_insert.
    + rewrite decide_False by (intros [_ ?]; done). cbn. rewrite app_nil_r. rewrite lookup_insert_ne by done. exact IH.
  - rewrite decide_False by (intros [? _]; done). cbn. rewrite app_nil_r. exact IH.
Qed.
Definition picks (pick : list N → option N) : Prop := pick [] = None ∧ (∀ v, pick [v] = Some v).
Lemma no_overwrite_tail o h : no_overwrite (o :: h) → no_overwrite h.
Proof. destruct o; cbn; naive_solver. Qed.
Lemma sql_rows pick os sc k :
  picks pick → no_overwrite (rev os) → rows_of (sql_run pick [] os) sc k = option_list (last_value (rev os) sc k).
Proof.
  intros [P0 P1]. revert sc k. induction os as [|o os IH] using rev_ind; intros sc k Hn; [done|].
  unfold sql_run in *. rewrite foldl_app. rewrite rev_app_distr in *. cbn [foldl rev app] in *.
  specialize (λ sc k, IH sc k (no_overwrite_tail _ _ Hn)). set (t := foldl _ [] os) in *.
  destruct o as [sc' k'|sc' k' v|sc' k'|sc'|sc']; cbn [sql_step last_value fst].
  - apply IH.
  - destruct Hn as [Hl _]. rewrite rows_app, IH. unfold rows_of. rewrite filter_cons, filter_nil.
    destruct (decide (row_is sc k (mk_row sc' k' v))) as [[H1 H2]|Hr]; cbn in *.
    + subst. rewrite decide_True by done. by rewrite Hl.
    + rewrite decide_False by exact Hr. by rewrite app_nil_r.
  - pose proof (IH sc' k') as Hk. destruct (decide (sc' = sc ∧ k' = k)) as [[-> ->]|Hne].
    + rewrite Hk. destruct (last_value (rev os) sc k) as [v|] eqn:El; cbn.
      * rewrite P1. cbn. apply rows_filter_none. intros r Hr Hnr. done.
      * rewrite P0. cbn. exact Hk.
    + destruct (pick (rows_of t sc' k')); cbn [fst]; [|apply IH]. rewrite rows_filter; [apply IH|]. intros r [<- <-] [E1 E2]. by destruct Hne.
  - apply IH.
  - destruct (decide (sc' = sc)) as [->|Hne].
    + apply rows_filter_none. intros r [<- _] Hnr. done.
    + rewrite rows_filter; [apply IH|]. intros r [<- _] E. done.
Qed.
Theorem C172_partial pick os o :
  picks pick → no_overwrite (rev os) → right_answer (rev os) o (sql_step pick (sql_run pick [] os) o).2.
Proof.
  intros HP Hn. pose proof (λ sc k, sql_rows pick os sc k HP Hn) as Hr. destruct HP as [P0 P1].
  assert (∀ sc k, pick (rows_of (sql_run pick [] os) sc k) = last_value (rev os) sc k) as Hp.
  { intros sc k. rewrite Hr. destruct (last_value (rev os) sc k); [apply P1|exact P0]. }
  assert (∀ sc k, sql_all (sql_run pick [] os) sc !! k = last_value (rev os) sc k) as Ha.
  { intros sc k. rewrite sql_all_lookup, Hr. by destruct (last_value (rev os) sc k). }
  destruct o as [sc k|sc k v|sc k|sc|sc]; cbn [sql_step].
  - apply Hp.
  - apply Hp.
  - rewrite Hp. destruct (last_value (rev os) sc k) eqn:E; cbn; by rewrite E.
  - exact (Ha sc).
  - exact (Ha sc).
Qed.
(** Removing a key before it is set again keeps to that. *)
Example C172_example :
  picks head ∧ no_overwrite (rev [KSet (1, 0, 9) 5 50; KRemove (1, 0, 9) 5; KSet (1, 0, 9) 5 52]) ∧
  (sql_step head (sql_run head [] [KSet (1, 0, 9) 5 50; KRemove (1, 0, 9) 5; KSet (1, 0, 9) 5 52]) (KGet (1, 0, 9) 5)).2 = RVal (Some 52).
Proof. split; [done|]. split; [|by vm_compute]. cbn. repeat split; by vm_compute. Qed.

(** C173: a connection's data is its own: what is done under another session, peer or map changes no answer. *)
Theorem C173_memory m o' sc k :
  is_Some (m !! session_of sc) → op_scope o' ≠ sc →
  (mem_step (mem_step m o').1 (KGet sc k)).2 = (mem_step m (KGet sc k)).2.
Proof.
  intros Hs Hne. destruct sc as [[s p] key].
  assert (∀ m', is_Some (m' !! s) → (mem_step m' (KGet (s, p, key) k)).2 = RVal (mem_view m' (s, p, key) k)) as Hg.
  { intros m' [b Hb]. cbn [mem_step]. unfold mem_view. by rewrite Hb. }
  unfold session_of in Hs. cbn in Hs. rewrite !Hg; [|done|by apply account_step]. f_equal.
  rewrite (view_step m o' (s, p, key) k (match mem_view m (s, p, key) k with Some v => [KSet (s, p, key) k v] | None => [] end)).
  - destruct o' as [sc k'|sc k' v|sc k'|sc|sc]; cbn [op_scope] in Hne; cbn [last_value]; rewrite ?decide_False by naive_solver;
      (destruct (mem_view m (s, p, key) k); cbn; [by rewrite decide_True|done]).
  - done.
  - destruct (mem_view m (s, p, key) k); cbn; [by rewrite decide_True|done].
Qed.
Theorem C173_sql pick t o' sc k :
  op_scope o' ≠ sc →
  (sql_step pick (sql_step pick t o').1 (KGet sc k)).2 = (sql_step pick t (KGet sc k)).2 ∧
  sql_all (sql_step pick t o').1 sc !! k = sql_all t sc !! k.
Proof.
  intros Hne. rewrite !sql_all_lookup. cbn [sql_step snd].
  assert (rows_of (sql_step pick t o').1 sc k = rows_of t sc k) as ->; [|done].
  destruct o' as [sc' k'|sc' k' v|sc' k'|sc'|sc']; cbn [op_scope] in Hne; cbn [sql_step fst]; try done.
  - rewrite rows_app. unfold rows_of at 2. rewrite filter_cons, filter_nil, decide_False; [by rewrite app_nil_r|]. by intros [? _].
  - destruct (pick _); cbn [fst]; [|done]. apply rows_filter. intros r [<- _] [E _]. done.
  - apply rows_filter. intros r [<- _] E. done.
Qed.
Example C173_example :
  (mem_step (mem_run {[1 := ∅]} [KSet (1, 0, 9) 5 50; KSet (1, 2, 9) 5 51; KRemoveAll (1, 2, 9)]) (KGet (1, 0, 9) 5)).2 = RVal (Some 50) ∧
  (sql_step head (sql_run head [] [KSet (1, 0, 9) 5 50; KSet (1, 2, 9) 5 51; KRemoveAll (1, 2, 9)]) (KGet (1, 0, 9) 5)).2 = RVal (Some 50).
Proof. by vm_compute. Qed.

(** C174: Ok from set means that the value is stored.  False in memory, when the account is gone: nothing is stored, and Ok. *)
Theorem C174_refuted m s p key k v :
  m !! s = None →
  (mem_step m (KSet (s, p, key) k v)).2 = RVal None ∧
  (mem_step (mem_step m (KSet (s, p, key) k v)).1 (KGet (s, p, key) k)).2 = RVal None.
Proof. intros H. cbn. rewrite H. cbn. by rewrite H. Qed.
(** What holds: it is if the account exists. *)
Theorem C174_partial m s p key k v :
  is_Some (m !! s) → (mem_step (mem_step m (KSet (s, p, key) k v)).1 (KGet (s, p, key) k)).2 = RVal (Some v).
Proof.
  intros [b Hb]. cbn. rewrite Hb. cbn. rewrite lookup_insert. cbn. rewrite sub_put, decide_True by done. by rewrite lookup_insert.
Qed.
Example C174_example :
  (mem_step (mem_step {[1 := ∅]} (KSet (1, 0, 9) 5 50)).1 (KGet (1, 0, 9) 5)).2 = RVal (Some 50) ∧
  (mem_step (mem_step {[1 := ∅]} (KSet (2, 0, 9) 5 50)).1 (KGet (2, 0, 9) 5)).2 = RVal None.
Proof. by vm_compute. Qed.
Print Assumptions C171_memory.
Print Assumptions C172_refuted.
Print Assumptions C172_partial.
Print Assumptions C173_memory.
Print Assumptions C173_sql.
Print Assumptions C174_refuted.
Print Assumptions C174_partial.
