(** C91–C94: names, paths and the remote encrypted virtual filesystem.

    [v_dir] and [t_dir] stand for the directories of the node, [ser] and
    [deser] for the format of the metadata. *)
From Coq Require Import ZifyBool ZifyNat ZifyN.
From Coq Require Import String Ascii.
From stdpp Require Import prelude gmap.
From Verif Require Import Vfs_Model Vfs_Spec Vfs_Proofs.
Local Open Scope N_scope.

(** text of the examples *)
Definition chars (s : string) : str := N_of_ascii <$> list_ascii_of_string s.
Definition ser1 (l : N) : str := [l].
Definition deser1 (s : str) : option N := match s with [l] => Some l | _ => None end.
Definition vdir1 : str := chars "/home/u/.citadel/virtual/".
Lemma vdir1_good : good_dir vdir1.
Proof.
  split_and!; [done| |]; apply (bool_decide_unpack _); by vm_compute.
Qed.
Definition put (who owner : N) (name : string) (level : N) (d : str) : N * req := (who, Put owner (chars name) level d).
Definition pull (who owner : N) (name : string) (t : bool) : N * req := (who, Pull owner (chars name) t).
Definition del (who owner : N) (name : string) : N * req := (who, Del owner (chars name)).

(** ** C91: what is accepted as a name stays inside the directory of the account *)
Theorem C91_virtual v_dir cid vpath path : good_dir v_dir → virtual_path v_dir cid vpath = Some path →
  within (home v_dir cid) (resolve path) ∧ within (home v_dir cid) (resolve (meta_path path)) ∧
  resolve (meta_path path) ≠ home v_dir cid.
Proof.
  intros Hd Hv. split_and!.
  - rewrite (virtual_resolve _ _ _ _ Hd Hv). by eexists.
  - destruct (meta_resolve _ _ _ _ Hd Hv) as (init & l & _ & _ & _ & ->). by eexists.
  - destruct (meta_resolve _ _ _ _ Hd Hv) as (init & l & _ & _ & _ & ->). intros E. apply (f_equal List.length) in E.
    rewrite !app_length in E. cbn in E. lia.
Qed.
Theorem C91_transfer t_dir cid name path : good_dir t_dir → transfer_path t_dir cid name = Some path →
  within (home t_dir cid) (resolve path).
Proof. intros Hd Hv. rewrite (transfer_resolve _ _ _ _ Hd Hv). by eexists. Qed.
(** no two accounts share a path *)
Theorem C91_separate dir a b p : within (home dir a) p → within (home dir b) p → a = b.
Proof. intros Ha Hb. eapply homes_apart; [done|]. by left. Qed.
Print Assumptions C91_virtual.
Print Assumptions C91_transfer.
Print Assumptions C91_separate.

Example C91_accepted :
  resolve <$> virtual_path vdir1 17 (chars "/docs\a/./b.txt") =
  Some (chars <$> ["home"; "u"; ".citadel"; "virtual"; "17"; "docs"; "a"; "b.txt"]%string).
Proof. by vm_compute. Qed.
Example C91_rejected :
  virtual_path vdir1 17 (chars "/docs/../../18/b.txt") = None ∧ virtual_path vdir1 17 (chars "docs") = None ∧
  virtual_path vdir1 17 (chars "/a\..\..\18") = None ∧
  transfer_path vdir1 17 (chars "../18/b.txt") = None ∧ transfer_path vdir1 17 (chars "/etc/passwd") = None ∧
  resolve <$> transfer_path vdir1 17 (chars "b.txt") = Some (chars <$> ["home"; "u"; ".citadel"; "virtual"; "17"; "b.txt"]%string).
Proof. split_and!; by vm_compute. Qed.
(** the check matters: the path would lead to another account *)
Example C91_without_check : resolve (vdir1 ++ cid_str 17 ++ chars "/../18/b.txt") = home vdir1 18 ++ [chars "b.txt"].
Proof. by vm_compute. Qed.

(** ** C92: an account reaches only its own virtual files *)
Definition only_own : Prop := ∀ v_dir ser deser f who r f' a, good_dir v_dir → (∀ l, deser (ser l) = Some l) →
  serve v_dir ser deser f who r = (f', a) →
  (∀ other p, other ≠ who → within (home v_dir other) p → f' !! p = f !! p) ∧
  (∀ l d, a = Content l d → ∃ p, within (home v_dir who) p ∧ f !! p = Some (File d)).

(** accounts 1 and 2: the requests of 2 name account 1 *)
Definition f_one : fs := (serve vdir1 ser1 deser1 ∅ 1 (Put 1 (chars "/secret") 0 [5; 6; 7])).1.
Lemma empty_home who p : within (home vdir1 2) p → f_one !! p = Some (File who) → False.
Proof.
  intros Hp Hf. unfold f_one in Hf. destruct (serve vdir1 ser1 deser1 ∅ 1 _) as [f' a] eqn:E. cbn [fst] in Hf.
  rewrite (serve_other _ _ _ vdir1_good _ _ _ _ _ 2 p E) in Hf; [done|done|done].
Qed.
Theorem C92_refuted : ¬ only_own.
Proof.
  intros H. destruct (serve vdir1 ser1 deser1 f_one 2 (Pull 1 (chars "/secret") false)) as [f' a] eqn:E.
  assert (Ha : a = Content 0 [5; 6; 7]).
  { assert (G : (serve vdir1 ser1 deser1 f_one 2 (Pull 1 (chars "/secret") false)).2 = Content 0 [5; 6; 7]) by (by vm_compute). by rewrite E in G. }
  destruct (H vdir1 ser1 deser1 f_one 2 (Pull 1 (chars "/secret") false) f' a vdir1_good) as [_ H2]; [done|exact E|].
  destruct (H2 _ _ Ha) as (p & Hp & Hf). exact (empty_home _ _ Hp Hf).
Qed.
Print Assumptions C92_refuted.
(** ... and what 2 overwrites, takes or deletes is gone for 1 *)
Example C92_witness :
  (serve_all vdir1 ser1 deser1 ∅
     [put 1 1 "/secret" 0 [5; 6; 7]; pull 2 1 "/secret" false; put 2 1 "/secret" 1 [9]; pull 1 1 "/secret" false;
      del 2 1 "/secret"; pull 1 1 "/secret" false]).2
  = [(1, Done); (2, Content 0 [5; 6; 7]); (2, Done); (1, Content 1 [9]); (2, Done); (1, Error)].
Proof. by vm_compute. Qed.

(** MISSING from the full statement: requests that name another account; the server does not compare it with the session. *)
Theorem C92_partial v_dir ser deser f who r f' a : good_dir v_dir → owner r = who → serve v_dir ser deser f who r = (f', a) →
  (∀ other p, other ≠ who → within (home v_dir other) p → f' !! p = f !! p) ∧
  (∀ l d, a = Content l d → ∃ p, within (home v_dir who) p ∧ f !! p = Some (File d)).
Proof.
  intros Hd Ho E. split.
  - intros other p Hne Hp. apply (serve_other _ _ _ Hd _ _ _ _ _ other p E); [congruence|done].
  - intros l d ->. destruct r as [cid vpath level data|cid vpath t|cid vpath]; cbn [owner] in Ho; subst cid.
    + exfalso. cbn [serve] in E. repeat case_match; simplify_eq.
    + by eapply serve_content.
    + exfalso. cbn [serve] in E. repeat case_match; simplify_eq.
Qed.
Print Assumptions C92_partial.
(** outside the directory of the account it names, a request only ever adds directories on the way to it *)
Theorem C92_outside_partial v_dir ser deser f who r f' a p : good_dir v_dir → serve v_dir ser deser f who r = (f', a) →
  ¬ within (home v_dir (owner r)) p →
  f' !! p = f !! p ∨ (f' !! p = Some Dir ∧ (∀ d, f !! p ≠ Some (File d)) ∧ ∃ k, p = take k (home v_dir (owner r))).
Proof.
  intros Hd E Hp. destruct (serve_outside _ _ _ Hd _ _ _ _ _ p E Hp) as [?|(H1 & H2 & H3)]; [by left|right]. split_and!; try done.
  intros d Hf. unfold is_file in H2. by rewrite Hf in H2.
Qed.
Print Assumptions C92_outside_partial.
Example C92_own :
  (serve_all vdir1 ser1 deser1 ∅
     [put 1 1 "/secret" 0 [5; 6; 7]; pull 2 2 "/secret" false; put 2 2 "/secret" 1 [9]; del 2 2 "/secret"; pull 1 1 "/secret" false]).2
  = [(1, Done); (2, Error); (2, Done); (2, Done); (1, Content 0 [5; 6; 7])].
Proof. by vm_compute. Qed.

(** ** C93: the filesystem of an account is a map from names to files *)
Definition is_map (W : list str → Prop) : Prop := ∀ v_dir ser deser A rs, good_dir v_dir → (∀ l, deser (ser l) = Some l) →
  honest rs →
  (∀ r, (A, r) ∈ rs → accepted (vpath_of r) = true → names_file (vpath_of r) ∧ W (name_of (vpath_of r))) →
  mine A (serve_all v_dir ser deser ∅ rs).2 = (shelve_all ∅ (mine A rs)).2.
Definition unnested_is_map : Prop := ∀ W, apart W → (∀ n, W n → n ≠ []) → is_map W.

Definition clash : list (N * req) := [put 1 1 "/a" 0 [5]; put 1 1 "/a.vxe" 0 []; pull 1 1 "/a" false].
(** the metadata of "/a" are in "/a.vxe" *)
Theorem C93_refuted : ¬ unnested_is_map.
Proof.
  intros H.
  assert (G : mine 1 (serve_all vdir1 ser1 deser1 ∅ clash).2 = (shelve_all ∅ (mine 1 clash)).2).
  { apply (H (λ n, n ∈ [[chars "a"]; [chars "a.vxe"]])).
    - intros n n' rest Hn Hn' E. apply (f_equal List.length) in E. rewrite app_length in E.
      assert (L : ∀ n, n ∈ [[chars "a"]; [chars "a.vxe"]] → List.length n = 1%nat).
      { intros x Hx. rewrite !elem_of_cons in Hx. destruct Hx as [->|[->|Hx%elem_of_nil]]; done. }
      rewrite (L _ Hn), (L _ Hn') in E. destruct rest; [done|cbn in E; lia].
    - intros n Hn ->. rewrite !elem_of_cons in Hn. destruct Hn as [?|[?|Hx%elem_of_nil]]; done.
    - apply vdir1_good.
    - done.
    - intros who r Hr. unfold clash in Hr. rewrite !elem_of_cons in Hr. destruct Hr as [[= -> ->]|[[= -> ->]|[[= -> ->]|Hx%elem_of_nil]]]; done.
    - intros r Hr _. unfold clash in Hr. rewrite !elem_of_cons in Hr.
      destruct Hr as [[= ->]|[[= ->]|[[= ->]|Hx%elem_of_nil]]]; [| | |done]; (split; [by vm_compute|apply (bool_decide_unpack _); by vm_compute]). }
  vm_compute in G. discriminate G.
Qed.
Print Assumptions C93_refuted.
Example C93_witness :
  (serve_all vdir1 ser1 deser1 ∅ clash).2 = [(1, Done); (1, Done); (1, Error)] ∧
  (shelve_all ∅ (mine 1 clash)).2 = [Done; Done; Content 0 [5]].
Proof. split; by vm_compute. Qed.

(** MISSING from the full statement: names with a part that ends in ".vxe". *)
Theorem C93_partial W : apart W → (∀ n, W n → plain_name n) → is_map W.
Proof.
  intros Hap Hpl v_dir ser deser A rs Hd Hs Hh HW. destruct (serve_all v_dir ser deser ∅ rs) as [f' l] eqn:E.
  eapply (refines v_dir ser deser Hd Hs W Hap Hpl A rs ∅ ∅ f' l); [|done|done|done].
  apply Inv_init.
Qed.
Print Assumptions C93_partial.
Definition busy : list (N * req) :=
  [put 1 1 "/x/a" 0 [5]; put 2 2 "/x/a" 1 [6]; put 1 1 "/x/b" 2 [7; 7]; pull 1 1 "\x\a" true; pull 1 1 "/x/a" false;
   put 1 1 "/x/./a" 3 [8]; pull 2 2 "/x/a" false; pull 1 1 "/x/a" false; del 1 1 "/x/b"; pull 1 1 "/x/b" false; put 1 1 "x" 0 []].
Example C93_busy :
  mine 1 (serve_all vdir1 ser1 deser1 ∅ busy).2
  = [Done; Done; Content 0 [5]; Error; Done; Content 3 [8]; Done; Error; Error] ∧
  (shelve_all ∅ (mine 1 busy)).2 = mine 1 (serve_all vdir1 ser1 deser1 ∅ busy).2.
Proof. split; by vm_compute. Qed.

(** the hypotheses of [C93_partial] hold of it *)
Definition busy_names : list (list str) := [chars <$> ["x"; "a"]; chars <$> ["x"; "b"]]%string.
Example C93_busy_covered : honest busy ∧ apart (λ n, n ∈ busy_names) ∧ (∀ n, n ∈ busy_names → plain_name n) ∧
  ∀ r, (1, r) ∈ busy → accepted (vpath_of r) = true → names_file (vpath_of r) ∧ name_of (vpath_of r) ∈ busy_names.
Proof.
  assert (L : ∀ n, n ∈ busy_names → List.length n = 2%nat ∧ Forall (λ p, List.length p = 1%nat) n).
  { intros n Hn. unfold busy_names in Hn. rewrite !elem_of_cons in Hn. destruct Hn as [->|[->|Hx%elem_of_nil]]; [| |done]; split; by repeat constructor. }
  split_and!.
  - intros who r Hr. unfold busy in Hr. rewrite !elem_of_cons, elem_of_nil in Hr.
    repeat (destruct Hr as [Hr|Hr]; [by injection Hr as -> ->|]); done.
  - intros n n' rest Hn Hn' E. apply (f_equal List.length) in E. rewrite app_length in E.
    rewrite (proj1 (L _ Hn)), (proj1 (L _ Hn')) in E. destruct rest; [done|cbn in E; lia].
  - intros n Hn. destruct (L _ Hn) as [L1 L2]. split; [by intros ->|]. intros p Hp q ->. rewrite Forall_forall in L2. specialize (L2 _ Hp).
    rewrite app_length in L2. cbn in L2. lia.
  - intros r Hr. unfold busy in Hr. rewrite !elem_of_cons, elem_of_nil in Hr.
    repeat (destruct Hr as [Hr|Hr]; [try discriminate Hr; injection Hr as ->; intros Ha;
      first [discriminate Ha | split; [by vm_compute|apply (bool_decide_unpack _); by vm_compute]]|]); done.
Qed.

(** ** C94: no file is written without the acceptance of the receiver *)
Definition asked_first : Prop := ∀ es id, Opened id ∈ orun orx0 es →
  (∃ es1 es2, es = es1 ++ Accepts id :: es2 ∧ Asked id ∈ orun orx0 es1) ∨ Asks id ∈ es.
(** a header that declares a level passes for the answer to a pull nobody asked for *)
Theorem C94_refuted : ¬ asked_first.
Proof.
  intros H. destruct (H [Arrives (mk_offer 4 (chars "payload") (Some 0))] 4) as [(es1 & es2 & E & _)|E].
  - by left.
  - destruct es1 as [|e [|e2 es1]]; done.
  - by apply elem_of_list_singleton in E.
Qed.
Print Assumptions C94_refuted.
(** MISSING from the full statement: headers that declare a level. *)
Theorem C94_partial es id : Opened id ∈ orun orx0 es →
  (∃ es1 es2, es = es1 ++ Accepts id :: es2 ∧ Asked id ∈ orun orx0 es1) ∨
  (∃ o l, Arrives o ∈ es ∧ o_id o = id ∧ o_level o = Some l).
Proof. apply opened_cause. Qed.
(** one acceptance opens one file *)
Theorem C94_once_partial es id : (∀ o, Arrives o ∈ es → o_level o = None) →
  (List.length (filter (λ d, d = Opened id) (orun orx0 es)) <= List.length (filter (λ e, match e with Accepts i => bool_decide (i = id) | _ => false end = true) es))%nat.
Proof. apply opened_count. Qed.
(** what was declined is not opened, unless it is offered again *)
Theorem C94_declined es1 es2 id : (∀ o, Arrives o ∈ es2 → o_id o ≠ id) →
  ∃ l, orun orx0 (es1 ++ Declines id :: es2) = orun orx0 es1 ++ l ∧ Opened id ∉ l.
Proof.
  intros Hn. exists (orun (oafter orx0 (es1 ++ [Declines id])) es2). split; [|by apply declined_gone].
  replace (es1 ++ Declines id :: es2) with ((es1 ++ [Declines id]) ++ es2) by (by rewrite <- app_assoc). rewrite orun_after. f_equal.
  rewrite orun_after. cbn [orun ostep]. case_bool_decide; by rewrite app_nil_r.
Qed.
Print Assumptions C94_partial.
Print Assumptions C94_once_partial.
Print Assumptions C94_declined.
Example C94_run :
  orun orx0 [Arrives (mk_offer 4 (chars "a") None); Arrives (mk_offer 5 (chars "b") None); Accepts 5; Declines 4; Accepts 4; Accepts 5;
             Arrives (mk_offer 6 (chars "c") (Some 0))]
  = [Asked 4; Asked 5; Opened 5; Opened 6].
Proof. by vm_compute. Qed.
