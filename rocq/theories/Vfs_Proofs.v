From Coq Require Import ZifyBool ZifyNat ZifyN.
From Coq Require Import Decimal DecimalN DecimalPos.
From stdpp Require Import prelude gmap.
From Verif Require Import Vfs_Model Vfs_Spec.
Local Open Scope N_scope.

(** ** Parts of a path *)
Lemma parts_ne s : parts_of s ≠ [].
Proof. induction s as [|ch s IH]; cbn; [done|]. destruct (ch =? slash); [done|]. by destruct (parts_of s). Qed.
Lemma parts_app a b : parts_of (a ++ slash :: b) = parts_of a ++ parts_of b.
Proof.
  induction a as [|ch a IH]; [done|]. cbn [app parts_of]. rewrite IH. destruct (ch =? slash); [done|].
  pose proof (parts_ne a) as H. by destruct (parts_of a).
Qed.
Lemma segments_app a b : segments (a ++ slash :: b) = segments a ++ segments b.
Proof. unfold segments. by rewrite parts_app, filter_app. Qed.
Lemma parts_one s : slash ∉ s → parts_of s = [s].
Proof.
  induction s as [|ch s IH]; [done|]. rewrite not_elem_of_cons. intros [H1 H2]. cbn [parts_of].
  rewrite (IH H2), (proj2 (N.eqb_neq _ _)); [done|congruence].
Qed.
Lemma parts_end s e : slash ∉ e → ∃ init l, parts_of s = init ++ [l] ∧ parts_of (s ++ e) = init ++ [l ++ e].
Proof.
  intros He. induction s as [|ch s (init & l & E1 & E2)]; [exists [], []; split; [done|]; cbn [app]; by rewrite (parts_one _ He)|].
  cbn [app parts_of]. rewrite E1, E2. destruct (ch =? slash).
  - exists ([] :: init), l. done.
  - destruct init as [|p init]; cbn; [by exists [], (ch :: l)|by exists ((ch :: p) :: init), l].
Qed.
Lemma parts_head s p r : parts_of s = p :: r → ∃ t, s = p ++ t.
Proof.
  revert p r. induction s as [|ch s IH]; intros p r E; cbn in E; [injection E as <- <-; by exists []|].
  destruct (ch =? slash); [injection E as <- <-; by eexists|].
  destruct (parts_of s) as [|p' r'] eqn:E'; [by destruct (parts_ne s)|]. injection E as <- <-.
  destruct (IH _ _ eq_refl) as [t ->]. by exists t.
Qed.
Lemma no_dots s : contains_dots s = false → [dot; dot] ∉ parts_of s.
Proof.
  induction s as [|ch s IH]; intros H.
  - cbn. by intros ?%elem_of_list_singleton.
  - assert (Hs : contains_dots s = false).
    { cbn [contains_dots] in H. destruct s; [done|]. by apply orb_false_iff in H as [_ ?]. }
    specialize (IH Hs). cbn [parts_of]. destruct (ch =? slash).
    + rewrite not_elem_of_cons. done.
    + destruct (parts_of s) as [|p r] eqn:E; [by destruct (parts_ne s)|]. rewrite not_elem_of_cons in *. destruct IH as [_ IH].
      split; [|done]. intros [= <- <-]. destruct (parts_head _ _ _ E) as [t ->]. cbn in H. done.
Qed.
Lemma not_in_segments p s : p ∉ parts_of s → p ∉ segments s.
Proof. intros H (_ & ?)%elem_of_list_filter. done. Qed.
Lemma enter_all l : ∀ at_, [dot; dot] ∉ l → foldl enter at_ l = at_ ++ l.
Proof.
  induction l as [|p l IH]; intros at_; [by rewrite app_nil_r|]. rewrite not_elem_of_cons. intros [H1 H2]. cbn [foldl].
  rewrite IH by done. unfold enter. rewrite bool_decide_eq_false_2 by congruence. by rewrite <- app_assoc.
Qed.

(** ** Account numbers *)
Lemma digits_range u ch : ch ∈ digits u → 48 <= ch <= 57.
Proof. induction u; cbn; rewrite ?elem_of_nil, ?elem_of_cons; naive_solver lia. Qed.
Lemma digits_inj u : ∀ v, digits u = digits v → u = v.
Proof. induction u; intros [] E; cbn in E; try done; injection E as E; f_equal; auto. Qed.
Lemma cid_str_inj a b : cid_str a = cid_str b → a = b.
Proof. intros E%digits_inj. by rewrite <- (DecimalN.Unsigned.of_to a), <- (DecimalN.Unsigned.of_to b), E. Qed.
Lemma cid_str_ne a : cid_str a ≠ [].
Proof.
  unfold cid_str. destruct a as [|p]; [done|]. cbn. pose proof (DecimalPos.Unsigned.to_uint_nonnil p). by destruct (Pos.to_uint p).
Qed.
Lemma cid_no ch a : ch < 48 ∨ 57 < ch → ch ∉ cid_str a.
Proof. intros H Hin%digits_range. lia. Qed.
Lemma cid_ok a : meaningful (cid_str a) = true ∧ cid_str a ≠ [dot; dot].
Proof.
  assert (H : dot ∉ cid_str a) by (apply cid_no; lia). split.
  - unfold meaningful. rewrite !bool_decide_eq_false_2; [done| |apply cid_str_ne]. intros E. apply H. rewrite E. by left.
  - intros E. apply H. rewrite E. by left.
Qed.
Lemma segments_cid a : segments (cid_str a) = [cid_str a].
Proof.
  unfold segments. rewrite parts_one by (apply cid_no; lia). rewrite filter_cons, decide_True by (apply cid_ok). done.
Qed.

(** ** Where paths lead *)
Lemma last_split (d : str) : last d = Some slash → ∃ d', d = d' ++ [slash].
Proof. intros H. apply last_Some in H as [l ->]. by exists l. Qed.
Lemma segments_slash d : segments (d ++ [slash]) = segments d.
Proof. rewrite segments_app. cbn. by rewrite app_nil_r. Qed.
Lemma resolve_in dir cid v : good_dir dir → [dot; dot] ∉ segments v → resolve (dir ++ cid_str cid ++ slash :: v) = home dir cid ++ segments v.
Proof.
  intros (Hl & _ & Hdd) Hv. destruct (last_split _ Hl) as [d' ->]. rewrite segments_slash in Hdd.
  unfold home, resolve. rewrite segments_slash, (enter_all (segments d') []) by done.
  rewrite <- app_assoc. cbn [app]. rewrite !segments_app, segments_cid, enter_all; [by rewrite <- app_assoc|].
  rewrite !elem_of_app. intros [?|[?%elem_of_list_singleton|?]]; [done| |done]. by destruct (cid_ok cid).
Qed.
Lemma segments_abs v : segments (slash :: v) = segments v.
Proof. apply (segments_app [] v). Qed.

Lemma format_app a b : format_path (a ++ b) = format_path a ++ format_path b.
Proof. apply fmap_app. Qed.
Lemma format_id a : backslash ∉ a → format_path a = a.
Proof.
  induction a as [|ch a IH]; [done|]. rewrite not_elem_of_cons. intros [H1 H2]. unfold format_path in *. cbn. rewrite (IH H2).
  rewrite (proj2 (N.eqb_neq _ _)); [done|congruence].
Qed.
Lemma format_no a : backslash ∉ format_path a.
Proof. intros (ch & E & _)%elem_of_list_fmap. destruct (ch =? backslash) eqn:E'; [done|lia]. Qed.

Lemma valid_shape v : valid_virtual v = true → ∃ v', v = slash :: v' ∧ [dot; dot] ∉ segments v'.
Proof.
  unfold valid_virtual. rewrite !andb_true_iff, !negb_true_iff. intros [[H1 H2] H3]. destruct v as [|ch v]; [done|]. cbn in H1.
  apply N.eqb_eq in H1. subst ch. exists v. split; [done|]. rewrite <- segments_abs. by apply not_in_segments, no_dots.
Qed.

Lemma virtual_resolve dir cid vpath path : good_dir dir → virtual_path dir cid vpath = Some path →
  resolve path = home dir cid ++ name_of vpath.
Proof.
  intros Hd. unfold virtual_path, name_of. destruct (valid_virtual (format_path vpath)) eqn:E; [|done]. intros [= <-].
  destruct (valid_shape _ E) as (v' & -> & Hdd). by rewrite (resolve_in _ _ _ Hd Hdd), segments_abs.
Qed.

(** the last part of a valid path *)
Lemma valid_last v : valid_virtual v = true → ∃ init l, parts_of v = init ++ [l] ∧ parts_of (v ++ ext) = init ++ [l ++ ext] ∧ l ≠ [] ∧ l ≠ [dot; dot].
Proof.
  intros Hv. destruct (parts_end v ext) as (init & l & E1 & E2).
  { unfold ext. rewrite !not_elem_of_cons. split_and!; try done. apply not_elem_of_nil. }
  exists init, l. split_and!; try done.
  - intros ->. unfold valid_virtual in Hv. rewrite !andb_true_iff, !negb_true_iff in Hv. destruct Hv as [[H1 H2] _].
    apply bool_decide_eq_false in H2. apply H2.
    assert (G : ∀ v, v ≠ [] → last (parts_of v) = Some [] → last v = Some slash).
    { clear. induction v as [|ch v IH]; [done|]. intros _ H. cbn [parts_of] in H. destruct v as [|c2 v].
      - cbn in H. destruct (ch =? slash) eqn:E; [|done]. cbn. f_equal. lia.
      - rewrite last_cons_cons. apply IH; [done|]. destruct (ch =? slash).
        + rewrite last_cons in H. destruct (last (parts_of (c2 :: v))) eqn:E'; [done|]. apply last_None in E'. by destruct (parts_ne (c2 :: v)).
        + destruct (parts_of (c2 :: v)) as [|p r] eqn:E'; [by destruct (parts_ne (c2 :: v))|].
          rewrite last_cons in H |- *. destruct (last r); [done|]. by injection H as H. }
    apply G; [by intros ->|]. by rewrite E1, last_snoc.
  - intros ->. unfold valid_virtual in Hv. rewrite !andb_true_iff, !negb_true_iff in Hv. destruct Hv as [_ H3].
    apply (no_dots _ H3). rewrite E1, elem_of_app. right. by left.
Qed.
Lemma ext_last (l : str) : meaningful (l ++ ext) = true ∧ l ++ ext ≠ [dot; dot].
Proof.
  assert (H : (4 <= length (l ++ ext))%nat) by (rewrite app_length; cbn; lia). split.
  - unfold meaningful. rewrite !bool_decide_eq_false_2; [done| |]; intros E; rewrite E in H; cbn in H; lia.
  - intros E. rewrite E in H. cbn in H. lia.
Qed.

Definition metan (n : list str) : list str := match last n with Some l => removelast n ++ [l ++ ext] | None => [] end.
Lemma metan_snoc n l : metan (n ++ [l]) = n ++ [l ++ ext].
Proof. unfold metan. rewrite last_snoc. by rewrite removelast_last. Qed.

Notation keep l := (filter (λ p, meaningful p = true) l).
Lemma meta_string dir cid vpath path : good_dir dir → virtual_path dir cid vpath = Some path →
  meta_path path = dir ++ cid_str cid ++ (format_path vpath ++ ext).
Proof.
  intros (_ & Hb & _). unfold virtual_path. destruct (valid_virtual (format_path vpath)) eqn:E; [|done]. intros [= <-].
  unfold meta_path. rewrite !format_app. rewrite (format_id dir Hb), (format_id (cid_str cid)) by (apply cid_no; lia).
  rewrite (format_id (format_path vpath)) by apply format_no. by rewrite <- !app_assoc.
Qed.
Lemma meta_resolve dir cid vpath path : good_dir dir → virtual_path dir cid vpath = Some path →
  ∃ init l, parts_of (format_path vpath) = init ++ [l] ∧ l ≠ [] ∧ l ≠ [dot; dot] ∧
    resolve (meta_path path) = home dir cid ++ keep init ++ [l ++ ext].
Proof.
  intros Hd Hv. rewrite (meta_string _ _ _ _ Hd Hv). unfold virtual_path in Hv.
  destruct (valid_virtual (format_path vpath)) eqn:E; [|done]. destruct (valid_last _ E) as (init & l & E1 & E2 & H1 & H2).
  exists init, l. split_and!; try done. destruct (valid_shape _ E) as (v' & Ev & Hdd).
  assert (Es : segments (format_path vpath ++ ext) = keep init ++ [l ++ ext]).
  { unfold segments. rewrite E2, filter_app, filter_cons, decide_True by apply ext_last. done. }
  rewrite Ev in Es |- *. cbn [app] in Es |- *. rewrite segments_abs in Es. rewrite resolve_in; [by rewrite Es|done|].
  rewrite Es, elem_of_app, elem_of_list_singleton. intros [H|H]; [|by destruct (ext_last l)].
  apply Hdd. rewrite <- segments_abs, <- Ev. unfold segments. rewrite E1, filter_app, elem_of_app. by left.
Qed.
(** last parts *)
Lemma last_parts_app a b : last (parts_of (a ++ slash :: b)) = last (parts_of b).
Proof.
  rewrite parts_app. pose proof (parts_ne b) as H. destruct (parts_of b) as [|p r] using rev_ind; [done|]. by rewrite app_assoc, !last_snoc.
Qed.
Lemma last_parts_virtual dir cid v : good_dir dir → last (parts_of (dir ++ cid_str cid ++ slash :: v)) = last (parts_of (slash :: v)).
Proof.
  intros (Hl & _ & _). destruct (last_split _ Hl) as [d' ->]. rewrite <- app_assoc. cbn [app]. rewrite !last_parts_app. symmetry; apply (last_parts_app [] v).
Qed.

(** for paths that name files, both paths in terms of the name *)
Lemma target_paths dir cid vpath path : good_dir dir → virtual_path dir cid vpath = Some path → names_file vpath →
  file_target path = Some (home dir cid ++ name_of vpath) ∧
  file_target (meta_path path) = Some (home dir cid ++ metan (name_of vpath)) ∧
  resolve path = home dir cid ++ name_of vpath ∧ name_of vpath ≠ [].
Proof.
  intros Hd Hv Hn. pose proof (virtual_resolve _ _ _ _ Hd Hv) as Hr. destruct (meta_resolve _ _ _ _ Hd Hv) as (init & l & E1 & H1 & H2 & Hm).
  pose proof (meta_string _ _ _ _ Hd Hv) as Hms.
  unfold names_file in Hn. rewrite E1, last_snoc in Hn.
  assert (Hml : meaningful l = true).
  { unfold meaningful. rewrite !bool_decide_eq_false_2; [done|congruence|done]. }
  assert (En : name_of vpath = keep init ++ [l]).
  { unfold name_of, segments. rewrite E1, filter_app, filter_cons, decide_True by done. done. }
  unfold virtual_path in Hv. destruct (valid_virtual (format_path vpath)) eqn:E; [|done]. injection Hv as <-.
  destruct (valid_shape _ E) as (v' & Ev & _).
  split_and!.
  - unfold file_target. rewrite Hr. rewrite Ev, (last_parts_virtual _ _ _ Hd), <- Ev, E1, last_snoc, Hml, bool_decide_eq_false_2 by done. done.
  - unfold file_target. rewrite Hm, En, metan_snoc.
    destruct (parts_end (format_path vpath) ext) as (init' & l' & E3 & E4).
    { unfold ext. rewrite !not_elem_of_cons. split_and!; try done. apply not_elem_of_nil. }
    rewrite Hms. rewrite Ev in *. cbn [app]. rewrite (last_parts_virtual dir cid (v' ++ ext) Hd).
    cbn [app] in E4. rewrite E4, last_snoc. destruct (ext_last l') as [-> H]. by rewrite bool_decide_eq_false_2 by done.
  - done.
  - rewrite En. by intros [_ ?]%app_nil.
Qed.

(** ** Making directories *)
Lemma mkdirs_spec rest : ∀ f done f', mkdirs f done rest = Some f' →
  (∀ k, (k <= length rest)%nat → is_file f (done ++ take k rest) = false) ∧
  (∀ p, (∃ k, (k <= length rest)%nat ∧ p = done ++ take k rest) → f' !! p = Some Dir) ∧
  (∀ p, (∀ k, (k <= length rest)%nat → p ≠ done ++ take k rest) → f' !! p = f !! p).
Proof.
  induction rest as [|q rest IH]; intros f done f'; cbn [mkdirs]; (destruct (is_file f done) eqn:E; [discriminate|]).
  - intros [= <-]. split_and!.
    + intros k _. by rewrite take_nil, app_nil_r.
    + intros p (k & _ & ->). by rewrite take_nil, app_nil_r, lookup_insert.
    + intros p H. apply lookup_insert_ne. intros ->. apply (H 0%nat); [lia|]. by rewrite app_nil_r.
  - intros H. apply IH in H as (H1 & H2 & H3). split_and!.
    + intros [|k] Hk; [by rewrite app_nil_r|]. cbn [take]. cbn [length] in Hk. specialize (H1 k ltac:(lia)). rewrite <- app_assoc in H1. cbn [app] in H1.
      unfold is_file in *. rewrite lookup_insert_ne in H1; [done|]. intros Heq. apply (f_equal length) in Heq. rewrite app_length in Heq. cbn in Heq. lia.
    + intros p (k & Hk & ->). destruct k as [|k].
      * rewrite app_nil_r, H3; [apply lookup_insert|]. intros k' _ Heq. apply (f_equal length) in Heq. rewrite !app_length in Heq. cbn in Heq. lia.
      * apply H2. exists k. cbn [length] in Hk. split; [lia|]. by rewrite <- app_assoc.
    + intros p H. rewrite H3.
      * apply lookup_insert_ne. intros ->. apply (H 0%nat); [lia|]. by rewrite app_nil_r.
      * intros k Hk. rewrite <- app_assoc. apply (H (S k)). cbn. lia.
Qed.
Lemma mkdirs_ok rest : ∀ f done, (∀ k, (k <= length rest)%nat → is_file f (done ++ take k rest) = false) → ∃ f', mkdirs f done rest = Some f'.
Proof.
  induction rest as [|q rest IH]; intros f done H; cbn [mkdirs]; pose proof (H 0%nat ltac:(lia)) as H0; rewrite app_nil_r in H0; rewrite H0.
  - by eexists.
  - apply IH. intros k Hk. unfold is_file. rewrite lookup_insert_ne.
    + specialize (H (S k) ltac:(cbn; lia)). by rewrite <- app_assoc.
    + intros Heq. apply (f_equal length) in Heq. rewrite !app_length in Heq. cbn in Heq. lia.
Qed.

(** ** What a request can change *)
Lemma write_lookup f path d f' : write_file f path d = Some f' → ∃ p, file_target path = Some p ∧ f' = <[p := File d]> f.
Proof.
  unfold write_file. destruct (file_target path) as [p|]; [|done]. intros H. exists p. split; [done|]. repeat case_match; simplify_eq; done.
Qed.
Lemma remove_lookup f path f' : remove_file f path = Some f' → ∃ p d, file_target path = Some p ∧ f !! p = Some (File d) ∧ f' = delete p f.
Proof.
  unfold remove_file. destruct (file_target path) as [p|]; [|done]. intros H. exists p. repeat case_match; simplify_eq. eauto.
Qed.
Lemma target_resolve path p : file_target path = Some p → p = resolve path.
Proof. unfold file_target. repeat case_match; intros; simplify_eq; done. Qed.

Section Store.
  Context (v_dir : str) (ser : N → str) (deser : str → option N) (Hdir : good_dir v_dir).
  Notation serve := (serve v_dir ser deser).
  Notation serve_all := (serve_all v_dir ser deser).

  Lemma path_within cid vpath path p : virtual_path v_dir cid vpath = Some path →
    file_target path = Some p ∨ file_target (meta_path path) = Some p → within (home v_dir cid) p.
  Proof using Hdir.
    intros Hv [H|H]; apply target_resolve in H as ->.
    - rewrite (virtual_resolve _ _ _ _ Hdir Hv). by eexists.
    - destruct (meta_resolve _ _ _ _ Hdir Hv) as (init & l & _ & _ & _ & ->). by eexists.
  Qed.
  Lemma removelast_take {A} (l : list A) : removelast l = take (length l - 1) l.
  Proof using. by rewrite removelast_firstn_len, <- Nat.sub_1_r. Qed.
  (** the directories that are made lie on the way to the home directory, or in it *)
  Lemma parent_lookup cid vpath path f f' p : virtual_path v_dir cid vpath = Some path → parent_exists f path = Some f' →
    f' !! p = f !! p ∨
    (f' !! p = Some Dir ∧ is_file f p = false ∧ ∃ k, (k < length (home v_dir cid ++ name_of vpath))%nat ∧ p = take k (home v_dir cid ++ name_of vpath)).
  Proof using Hdir.
    clear ser deser. intros Hv Hp. unfold parent_exists in Hp. rewrite (virtual_resolve _ _ _ _ Hdir Hv), removelast_take in Hp.
    set (full := home v_dir cid ++ name_of vpath) in *.
    assert (Hlen : (0 < length full)%nat) by (unfold full, home; rewrite !app_length; cbn; lia).
    apply mkdirs_spec in Hp as (H1 & H2 & H3). rewrite take_length in *.
    set (ks := seq 0 (length full)).
    destruct (decide (Exists (λ k, p = take k full) ks)) as [H|H].
    - right. apply Exists_exists in H as (k & Hk & ->). apply elem_of_seq in Hk.
      assert (E : take k full = [] ++ take k (take (length full - 1) full)) by (rewrite take_take; cbn [app]; f_equal; lia).
      split_and!; [apply H2; exists k; split; [lia|done]|rewrite E; apply H1; lia|]. exists k. split; [lia|done].
    - left. apply H3. intros k Hk ->. apply H, Exists_exists. exists k. split; [apply elem_of_seq; lia|].
      cbn [app]. rewrite take_take. f_equal. lia.
  Qed.

  Lemma prefix_or_in {A} (h n : list A) k : (∃ j, take k (h ++ n) = take j h) ∨ ∃ r, take k (h ++ n) = h ++ r.
  Proof using deser v_dir.
    destruct (decide (k <= length h)%nat).
    - left. exists k. by rewrite take_app_le.
    - right. rewrite take_app_ge by lia. by eexists.
  Qed.

  Lemma serve_outside f who r f' a p : serve f who r = (f', a) → ¬ within (home v_dir (owner r)) p →
    f' !! p = f !! p ∨ (f' !! p = Some Dir ∧ is_file f p = false ∧ ∃ k, p = take k (home v_dir (owner r))).
  Proof using Hdir.
    intros E Hp.
    assert (HP : ∀ vpath path f1, virtual_path v_dir (owner r) vpath = Some path → parent_exists f path = Some f1 →
       f1 !! p = f !! p ∨ (f1 !! p = Some Dir ∧ is_file f p = false ∧ ∃ k, p = take k (home v_dir (owner r)))).
    { intros vpath path f1 H1 H2. destruct (parent_lookup _ _ _ _ _ p H1 H2) as [?|(? & ? & k & _ & ->)]; [by left|right]. split_and!; try done.
      destruct (prefix_or_in (home v_dir (owner r)) (name_of vpath) k) as [?|[rest Hr]]; [done|]. destruct Hp. by exists rest. }
    assert (HT : ∀ vpath path q, virtual_path v_dir (owner r) vpath = Some path → file_target path = Some q ∨ file_target (meta_path path) = Some q → q ≠ p).
    { intros vpath path q H1 H2 ->. by apply Hp, (path_within _ _ _ _ H1). }
    destruct r as [cid vpath level data|cid vpath take_it|cid vpath]; cbn [Vfs_Model.serve owner] in *.
    - destruct (virtual_path v_dir cid vpath) as [path|] eqn:Ev; [|injection E as <- <-; by left].
      destruct (parent_exists f path) as [f1|] eqn:E1; [|injection E as <- <-; by left].
      specialize (HP _ _ _ Ev E1). specialize (HT vpath path).
      destruct (write_file f1 path []) as [f2|] eqn:E2; [|by injection E as <- <-].
      apply write_lookup in E2 as (q & Hq & ->). pose proof (HT q Ev (or_introl Hq)) as Hq'.
      destruct (write_file _ (meta_path path) _) as [f3|] eqn:E3; [|injection E as <- <-; by rewrite lookup_insert_ne].
      apply write_lookup in E3 as (q2 & Hq2 & ->). pose proof (HT q2 Ev (or_intror Hq2)) as Hq2'.
      destruct (write_file _ path data) as [f4|] eqn:E4; [|injection E as <- <-; by rewrite !lookup_insert_ne].
      apply write_lookup in E4 as (q3 & Hq3 & ->). rewrite Hq in Hq3. injection Hq3 as <-. injection E as <- <-. by rewrite !lookup_insert_ne.
    - destruct (virtual_path v_dir cid vpath) as [path|] eqn:Ev; [|injection E as <- <-; by left].
      destruct (parent_exists f path) as [f1|] eqn:E1; [|injection E as <- <-; by left].
      specialize (HP _ _ _ Ev E1). specialize (HT vpath path).
      destruct (read_file f1 (meta_path path)); [|by injection E as <- <-].
      destruct (deser l); [|by injection E as <- <-]. destruct (read_file f1 path); [|by injection E as <- <-]. injection E as <- <-.
      destruct take_it; [|done]. destruct (remove_file f1 path) as [f2|] eqn:E2; [|done]. cbn.
      apply remove_lookup in E2 as (q & d & Hq & _ & ->). pose proof (HT q Ev (or_introl Hq)) as Hq'. by rewrite lookup_delete_ne.
    - destruct (virtual_path v_dir cid vpath) as [path|] eqn:Ev; [|injection E as <- <-; by left].
      destruct (parent_exists f path) as [f1|] eqn:E1; [|injection E as <- <-; by left].
      specialize (HP _ _ _ Ev E1). specialize (HT vpath path).
      destruct (remove_file f1 (meta_path path)) as [f2|] eqn:E2; [|by injection E as <- <-].
      apply remove_lookup in E2 as (q & d & Hq & _ & ->). pose proof (HT q Ev (or_intror Hq)) as Hq'.
      destruct (remove_file _ path) as [f3|] eqn:E3; [|injection E as <- <-; by rewrite lookup_delete_ne].
      apply remove_lookup in E3 as (q2 & d2 & Hq2 & _ & ->). pose proof (HT q2 Ev (or_introl Hq2)) as Hq2'. injection E as <- <-. by rewrite !lookup_delete_ne.
  Qed.

  Lemma homes_apart a b p : within (home v_dir a) p → within (home v_dir b) p ∨ (∃ k, p = take k (home v_dir b)) → a = b.
  Proof using.
    clear Hdir ser deser. intros [r Hr] H. assert (H' : p !! length (resolve v_dir) = Some (cid_str b)).
    { destruct H as [[r' ->]|[k ->]].
      - unfold home. rewrite <- app_assoc. by apply list_lookup_middle.
      - rewrite lookup_take; [by apply list_lookup_middle|].
        apply (f_equal length) in Hr. unfold home in *. rewrite take_length, !app_length in Hr. cbn in Hr. lia. }
    rewrite Hr in H'. unfold home in H'. rewrite <- app_assoc in H'. cbn [app] in H'. rewrite list_lookup_middle in H' by done.
    apply cid_str_inj. congruence.
  Qed.
  Lemma serve_other f who r f' a other p : serve f who r = (f', a) → owner r ≠ other → within (home v_dir other) p → f' !! p = f !! p.
  Proof using Hdir.
    intros E Hne Hp. destruct (serve_outside _ _ _ _ _ p E) as [?|(_ & _ & k & Hk)]; [|done|].
    - intros H. apply Hne. symmetry. by eapply homes_apart; [|left].
    - exfalso. apply Hne. symmetry. eapply homes_apart; [done|]. right. by exists k.
  Qed.
  Lemma serve_content f who cid vpath t f' l d : serve f who (Pull cid vpath t) = (f', Content l d) →
    ∃ p, within (home v_dir cid) p ∧ f !! p = Some (File d).
  Proof using Hdir.
    cbn [Vfs_Model.serve]. destruct (virtual_path v_dir cid vpath) as [path|] eqn:Ev; [|done].
    destruct (parent_exists f path) as [f1|] eqn:E1; [|done]. destruct (read_file f1 (meta_path path)); [|done]. destruct (deser l0); [|done].
    destruct (read_file f1 path) as [d'|] eqn:E2; [|done]. intros [= <- <- <-]. unfold read_file in E2.
    destruct (file_target path) as [p|] eqn:Et; [|done]. exists p. split; [by eapply path_within; [|left]|].
    destruct (f1 !! p) as [[|d'']|] eqn:Ef; try done. injection E2 as ->.
    destruct (parent_lookup _ _ _ _ _ p Ev E1) as [H|(H & _)]; congruence.
  Qed.
End Store.

(** ** The filesystem of one account is a map *)
Section Map.
  Context (v_dir : str) (ser : N → str) (deser : str → option N) (Hdir : good_dir v_dir) (Hser : ∀ l, deser (ser l) = Some l).
  Context (W : list str → Prop) (Hapart : apart W) (Hplain : ∀ n, W n → plain_name n) (A : N).
  Notation serve := (serve v_dir ser deser).
  Notation serve_all := (serve_all v_dir ser deser).
  Notation H := (home v_dir A).

  Lemma W_snoc n : W n → ∃ n0 l, n = n0 ++ [l] ∧ metan n = n0 ++ [l ++ ext].
  Proof using Hplain.
    intros HW. destruct (Hplain _ HW) as [Hn _]. destruct n as [|l n0 _] using rev_ind; [done|]. exists n0, l. by rewrite metan_snoc.
  Qed.
  Lemma W_take n n' k : W n → W n' → (k < length n')%nat → n ≠ take k n'.
  Proof using A Hapart Hplain Hser W deser ser.
    intros H1 H2 Hk ->. pose proof (Hapart _ _ (drop k n') H1 H2 (eq_sym (take_drop k n'))) as E.
    apply (f_equal length) in E. rewrite drop_length in E. cbn in E. lia.
  Qed.
  Lemma W_meta n n' k : W n → W n' → metan n ≠ take k n'.
  Proof using Hplain.
    intros H1 H2 E. destruct (W_snoc _ H1) as (n0 & l & -> & Em). rewrite Em in E.
    destruct (Hplain _ H2) as [_ Hp]. apply (Hp (l ++ ext)) with l; [|done].
    rewrite <- (take_drop k n'), <- E, !elem_of_app. left. right. by left.
  Qed.
  Lemma W_meta_inj n n' : W n → W n' → metan n = metan n' → n = n'.
  Proof using Hplain.
    intros H1 H2 E. destruct (W_snoc _ H1) as (n0 & l & -> & Em). destruct (W_snoc _ H2) as (n0' & l' & -> & Em'). rewrite Em, Em' in E.
    apply app_inj_tail in E as [-> E]. by apply app_inv_tail in E as ->.
  Qed.
  Lemma W_meta_ne n n' : W n → W n' → metan n ≠ n'.
  Proof using Hplain. intros H1 H2 E. apply (W_meta n n' (length n') H1 H2). by rewrite take_ge. Qed.

  Definition Inv (f : fs) (m : shelf) : Prop :=
    (∀ k, is_file f (take k H) = false) ∧
    (∀ n k, W n → (k < length n)%nat → is_file f (H ++ take k n) = false) ∧
    (∀ n, W n → match m !! n with
                | Some (l, d) => f !! (H ++ n) = Some (File d) ∧ f !! (H ++ metan n) = Some (File (ser l))
                | None => f !! (H ++ n) = None end) ∧
    (∀ n, W n → f !! (H ++ metan n) ≠ Some Dir).

  Definition on_way (p : list str) : Prop := (∃ k, p = take k H) ∨ ∃ n k, W n ∧ (k < length n)%nat ∧ p = H ++ take k n.
  Lemma home_ne : H ≠ [].
  Proof using. unfold home. by intros [_ ?]%app_nil. Qed.
  Lemma take_home k r : take k H = H ++ r → r = [].
  Proof using A Hplain Hser W deser ser v_dir.
    intros E. apply (f_equal length) in E. rewrite take_length, app_length in E. destruct r; [done|]. cbn in E. lia.
  Qed.
  Lemma on_way_name n : W n → ¬ on_way (H ++ n).
  Proof using A Hapart Hplain Hser W deser ser v_dir.
    intros HW [[k E]|(n' & k & HW' & Hk & E)].
    - symmetry in E. apply take_home in E as ->. by destruct (Hplain _ HW).
    - apply app_inv_head in E. by apply (W_take n n' k).
  Qed.
  Lemma on_way_meta n : W n → ¬ on_way (H ++ metan n).
  Proof using A Hplain Hser W deser ser v_dir.
    intros HW [[k E]|(n' & k & HW' & Hk & E)].
    - symmetry in E. apply take_home in E. destruct (W_snoc _ HW) as (n0 & l & _ & Em). rewrite Em in E. by apply app_nil in E as [_ ?].
    - apply app_inv_head in E. by apply (W_meta n n' k).
  Qed.
  Lemma Inv_dirs f f' m : Inv f m → (∀ p, (within H p ∨ ∃ k, p = take k H) → f' !! p = f !! p ∨ (f' !! p = Some Dir ∧ on_way p)) → Inv f' m.
  Proof using A Hapart Hplain Hser W deser ser v_dir.
    intros (I1 & I2 & I3 & I4) Hf.
    assert (Hn : ∀ n, W n → f' !! (H ++ n) = f !! (H ++ n)).
    { intros n HW. destruct (Hf (H ++ n)) as [?|[_ ?]]; [left; by exists n|done|]. by destruct (on_way_name _ HW). }
    assert (Hm : ∀ n, W n → f' !! (H ++ metan n) = f !! (H ++ metan n)).
    { intros n HW. destruct (Hf (H ++ metan n)) as [?|[_ ?]]; [left; by eexists|done|]. by destruct (on_way_meta _ HW). }
    split_and!.
    - intros k. unfold is_file. destruct (Hf (take k H)) as [->|[-> _]]; [right; by eexists|apply I1|done].
    - intros n k HW Hk. unfold is_file. destruct (Hf (H ++ take k n)) as [->|[-> _]]; [left; by eexists|by apply I2|done].
    - intros n HW. specialize (I3 n HW). by rewrite (Hn n HW), (Hm n HW).
    - intros n HW. rewrite Hm by done. by apply I4.
  Qed.

  (** the directories for a file in [W] can be made *)
  Lemma Inv_parent f m path n : Inv f m → W n → resolve path = H ++ n →
    ∃ f1, parent_exists f path = Some f1 ∧ Inv f1 m ∧ f1 !! removelast (H ++ n) = Some Dir.
  Proof using Hapart Hplain Hser Hdir.
    intros HI HW Hr. destruct (W_snoc _ HW) as (n0 & l & -> & Em).
    assert (El : removelast (H ++ n0 ++ [l]) = H ++ n0) by (rewrite app_assoc; apply removelast_last).
    assert (Hway : ∀ k, on_way (take k (H ++ n0))).
    { intros k. destruct (decide (k <= length H)%nat).
      - left. exists k. by rewrite take_app_le.
      - right. exists (n0 ++ [l]), ((k - length H) `min` length n0)%nat. split_and!; [done|rewrite app_length; cbn; lia|].
        rewrite take_app_ge by lia. f_equal. rewrite take_app_le by lia.
        destruct (decide (k - length H <= length n0)%nat); [by rewrite Nat.min_l by lia|]. by rewrite Nat.min_r, !take_ge by lia. }
    destruct (mkdirs_ok (H ++ n0) f []) as [f1 E1].
    { intros k _. cbn [app]. destruct HI as (I1 & I2 & _). destruct (Hway k) as [[j ->]|(n' & j & HW' & Hj & ->)]; [apply I1|by apply I2]. }
    exists f1. unfold parent_exists. rewrite Hr, El. split; [done|]. apply mkdirs_spec in E1 as (M1 & M2 & M3). split.
    - apply (Inv_dirs f); [done|]. intros p _. destruct (decide (Exists (λ k, p = take k (H ++ n0)) (seq 0 (S (length (H ++ n0)))))) as [He|He].
      + right. apply Exists_exists in He as (k & Hk & ->). apply elem_of_seq in Hk. split; [|apply Hway]. apply M2. exists k. split; [lia|done].
      + left. apply M3. intros k Hk ->. apply He, Exists_exists. exists k. split; [apply elem_of_seq; lia|done].
    - apply M2. exists (length (H ++ n0)). split; [done|]. by rewrite firstn_all.
  Qed.
  Lemma write_ok f path p d : file_target path = Some p → f !! removelast p = Some Dir → f !! p ≠ Some Dir → write_file f path d = Some (<[p := File d]> f).
  Proof using. unfold write_file. intros -> -> Hp. by destruct (f !! p) as [[]|]. Qed.
  Lemma removelast_ne (p : list str) : p ≠ [] → removelast p ≠ p.
  Proof using.
    clear. intros Hp E. destruct p as [|x p _] using rev_ind; [done|]. rewrite removelast_last in E. apply (f_equal length) in E. rewrite app_length in E. cbn in E. lia.
  Qed.

  Lemma serve_mine f m who r f' a : Inv f m → owner r = A → (accepted (vpath_of r) = true → names_file (vpath_of r) ∧ W (name_of (vpath_of r))) →
    serve f who r = (f', a) → ∃ m', shelve m r = (m', a) ∧ Inv f' m'.
  Proof using Hapart Hplain Hser Hdir.
    intros HI Ho Hacc E. unfold shelve. destruct (accepted (vpath_of r)) eqn:Ea; cbn [negb].
    2:{ exists m. unfold accepted in Ea. destruct r; cbn [owner vpath_of Vfs_Model.serve] in *; unfold virtual_path in E; rewrite Ea in E; injection E as <- <-; done. }
    destruct (Hacc eq_refl) as [Hnf HW]. clear Hacc.
    set (n := name_of (vpath_of r)) in *. set (path := v_dir ++ cid_str A ++ format_path (vpath_of r)).
    assert (Hv : virtual_path v_dir A (vpath_of r) = Some path) by (unfold virtual_path; unfold accepted in Ea; by rewrite Ea).
    destruct (target_paths _ _ _ _ Hdir Hv Hnf) as (T1 & T2 & Hr & Hne). fold n in T1, T2, Hr, Hne.
    destruct (Inv_parent _ _ _ _ HI HW Hr) as (f1 & E1 & (I1 & I2 & I3 & I4) & Hpar).
    assert (Hpar' : removelast (H ++ metan n) = removelast (H ++ n)).
    { destruct (W_snoc _ HW) as (n0 & l & -> & ->). by rewrite !app_assoc, !removelast_last. }
    assert (Hnm : H ++ n ≠ H ++ metan n) by (intros E'%app_inv_head; symmetry in E'; by apply (W_meta_ne n n)).
    assert (Hn1 : removelast (H ++ n) ≠ H ++ n) by (apply removelast_ne; intros [E' _]%app_nil; by apply home_ne).
    assert (Hn2 : removelast (H ++ n) ≠ H ++ metan n).
    { rewrite <- Hpar'. apply removelast_ne. intros [E' _]%app_nil. by apply home_ne. }
    pose proof (I3 n HW) as I3n. pose proof (I4 n HW) as I4n.
    assert (Ki : ∀ n' x, W n' → is_file f1 x = false → (x = H ++ n' → False) → ∀ d, is_file (<[H ++ n' := File d]> f1) x = false).
    { intros n' x _ Hx Hxn d. unfold is_file. rewrite lookup_insert_ne; [done|congruence]. }
    assert (Hk1 : ∀ k, take k H ≠ H ++ n) by (intros k E'; apply (on_way_name n HW); left; by exists k).
    assert (Hk2 : ∀ k, take k H ≠ H ++ metan n) by (intros k E'; apply (on_way_meta n HW); left; by exists k).
    assert (Hk3 : ∀ n' k, W n' → (k < length n')%nat → H ++ take k n' ≠ H ++ n) by (intros n' k HW' Hk E'; apply (on_way_name n HW); right; by exists n', k).
    assert (Hk4 : ∀ n' k, W n' → (k < length n')%nat → H ++ take k n' ≠ H ++ metan n) by (intros n' k HW' Hk E'; apply (on_way_meta n HW); right; by exists n', k).
    assert (Hk5 : ∀ n', W n' → n' ≠ n → H ++ n' ≠ H ++ n) by (intros n' _ Hd E'%app_inv_head; done).
    assert (Hk6 : ∀ n', W n' → H ++ n' ≠ H ++ metan n) by (intros n' HW' E'%app_inv_head; by apply (W_meta_ne n n')).
    assert (Hk7 : ∀ n', W n' → H ++ metan n' ≠ H ++ n) by (intros n' HW' E'%app_inv_head; by apply (W_meta_ne n' n)).
    assert (Hk8 : ∀ n', W n' → n' ≠ n → H ++ metan n' ≠ H ++ metan n) by (intros n' HW' Hd E'%app_inv_head; by apply Hd, W_meta_inj).
    destruct r as [cid vpath level data|cid vpath take_it|cid vpath]; cbn [owner vpath_of Vfs_Model.serve] in *; subst cid; rewrite Hv, E1 in E.
    - rewrite (write_ok f1 path (H ++ n)) in E; [|done|done|].
      2:{ destruct (m !! n) as [[]|]; [destruct I3n as [-> _]|rewrite I3n]; done. }
      rewrite (write_ok _ (meta_path path) (H ++ metan n)) in E; [|done| |].
      2:{ rewrite Hpar'. by rewrite lookup_insert_ne. }
      2:{ by rewrite lookup_insert_ne. }
      rewrite (write_ok _ path (H ++ n)) in E; [|done| |].
      2:{ by rewrite !lookup_insert_ne. }
      2:{ by rewrite lookup_insert_ne, lookup_insert. }
      injection E as <- <-. eexists. split; [done|]. split_and!.
      + intros k. unfold is_file. rewrite !lookup_insert_ne by done. apply I1.
      + intros n' k HW' Hk. unfold is_file. pose proof (Hk3 n' k HW' Hk). pose proof (Hk4 n' k HW' Hk). rewrite !lookup_insert_ne by done. by apply I2.
      + intros n' HW'. destruct (decide (n' = n)) as [->|Hd].
        * rewrite !lookup_insert. split; [done|]. by rewrite lookup_insert_ne, lookup_insert.
        * rewrite (lookup_insert_ne m) by done.
          pose proof (Hk5 _ HW' Hd). pose proof (Hk6 _ HW'). pose proof (Hk7 _ HW'). pose proof (Hk8 _ HW' Hd).
          rewrite !(lookup_insert_ne (M := gmap (list str))) by done. by apply I3.
      + intros n' HW'. pose proof (Hk7 _ HW'). rewrite lookup_insert_ne by done. destruct (decide (n' = n)) as [->|Hd]; [by rewrite lookup_insert|].
        pose proof (Hk8 _ HW' Hd). rewrite !lookup_insert_ne by done. by apply I4.
    - unfold read_file, remove_file in E. rewrite T1, T2 in E.
      destruct (m !! n) as [[l d]|] eqn:Em.
      + destruct I3n as [F1 F2]. rewrite F1, F2, Hser in E. injection E as <- <-. eexists. split; [done|]. destruct take_it; cbn [default]; [|done].
        split_and!.
        * intros k. unfold is_file. rewrite lookup_delete_ne by done. apply I1.
        * intros n' k HW' Hk. unfold is_file. pose proof (Hk3 n' k HW' Hk). rewrite lookup_delete_ne by done. by apply I2.
        * intros n' HW'. destruct (decide (n' = n)) as [->|Hd]; [by rewrite !lookup_delete|].
          pose proof (Hk5 _ HW' Hd). pose proof (Hk7 _ HW'). rewrite !lookup_delete_ne by done. by apply I3.
        * intros n' HW'. pose proof (Hk7 _ HW'). rewrite lookup_delete_ne by done. by apply I4.
      + rewrite I3n in E. assert (E' : (f1, Error) = (f', a)) by (destruct (f1 !! (H ++ metan n)) as [[|raw]|]; [done| |done]; by destruct (deser raw)).
        injection E' as <- <-. exists m. split; [done|]. by split_and!.
    - unfold remove_file in E. rewrite T1, T2 in E.
      destruct (m !! n) as [[l d]|] eqn:Em.
      + destruct I3n as [F1 F2]. rewrite F2 in E. rewrite lookup_delete_ne in E by done. rewrite F1 in E. injection E as <- <-. eexists. split; [done|].
        split_and!.
        * intros k. unfold is_file. rewrite !lookup_delete_ne by done. apply I1.
        * intros n' k HW' Hk. unfold is_file. pose proof (Hk3 n' k HW' Hk). pose proof (Hk4 n' k HW' Hk). rewrite !lookup_delete_ne by done. by apply I2.
        * intros n' HW'. destruct (decide (n' = n)) as [->|Hd]; [by rewrite !lookup_delete|].
          pose proof (Hk5 _ HW' Hd). pose proof (Hk6 _ HW'). pose proof (Hk7 _ HW'). pose proof (Hk8 _ HW' Hd). rewrite !lookup_delete_ne by done. by apply I3.
        * intros n' HW'. pose proof (Hk7 _ HW'). rewrite lookup_delete_ne by done. destruct (decide (n' = n)) as [->|Hd]; [by rewrite lookup_delete|].
          pose proof (Hk8 _ HW' Hd). rewrite lookup_delete_ne by done. by apply I4.
      + destruct (f1 !! (H ++ metan n)) as [[|raw]|] eqn:Ef.
        * injection E as <- <-. exists m. split; [done|]. by split_and!.
        * rewrite lookup_delete_ne, I3n in E by done. injection E as <- <-. eexists. split; [done|]. split_and!.
          -- intros k. unfold is_file. rewrite !lookup_delete_ne by done. apply I1.
          -- intros n' k HW' Hk. unfold is_file. pose proof (Hk4 n' k HW' Hk). rewrite !lookup_delete_ne by done. by apply I2.
          -- intros n' HW'. destruct (decide (n' = n)) as [->|Hd]; [rewrite Em; by rewrite lookup_delete_ne|].
             pose proof (Hk6 _ HW'). pose proof (Hk8 _ HW' Hd). rewrite !lookup_delete_ne by done. by apply I3.
          -- intros n' HW'. destruct (decide (n' = n)) as [->|Hd]; [by rewrite lookup_delete|].
             pose proof (Hk8 _ HW' Hd). rewrite lookup_delete_ne by done. by apply I4.
        * injection E as <- <-. exists m. split; [done|]. by split_and!.
  Qed.

  Lemma serve_theirs f m who r f' a : Inv f m → owner r ≠ A → serve f who r = (f', a) → Inv f' m.
  Proof using A Hapart Hdir Hplain Hser W deser ser v_dir.
    intros HI Ho E. apply (Inv_dirs f); [done|]. intros p [Hp|[k Hk]].
    - left. by apply (serve_other _ _ _ Hdir _ _ _ _ _ A p E).
    - destruct (serve_outside _ _ _ Hdir _ _ _ _ _ p E) as [?|(? & _ & _)]; [|by left|].
      + intros Hp. apply Ho. eapply homes_apart; [exact Hp|]. right. by exists k.
      + right. split; [done|]. left. by exists k.
  Qed.

  Lemma refines rs : ∀ f m f' l, Inv f m → honest rs →
    (∀ r, (A, r) ∈ rs → accepted (vpath_of r) = true → names_file (vpath_of r) ∧ W (name_of (vpath_of r))) →
    serve_all f rs = (f', l) → mine A l = (shelve_all m (mine A rs)).2.
  Proof using Hapart Hplain Hser Hdir.
    induction rs as [|[who r] rs IH]; intros f m f' l HI Hh HW E; cbn [Vfs_Model.serve_all] in E; [by injection E as <- <-|].
    destruct (serve f who r) as [f1 a] eqn:E1. destruct (serve_all f1 rs) as [f2 l2] eqn:E2. injection E as <- <-.
    assert (Hw : owner r = who) by (apply Hh; by left).
    assert (Hh' : honest rs) by (intros ???; apply Hh; by right).
    assert (HW' : ∀ r, (A, r) ∈ rs → accepted (vpath_of r) = true → names_file (vpath_of r) ∧ W (name_of (vpath_of r))) by (intros ??; apply HW; by right).
    unfold mine. destruct (decide (who = A)) as [->|Hne].
    - destruct (serve_mine _ _ _ _ _ _ HI Hw (HW r ltac:(left)) E1) as (m' & Em & HI').
      rewrite !filter_cons, !decide_True by done. cbn [fmap list_fmap snd shelve_all]. rewrite Em.
      specialize (IH _ _ _ _ HI' Hh' HW' E2). unfold mine in IH. rewrite IH. by destruct (shelve_all m' _).
    - rewrite !filter_cons, !decide_False by done. apply (IH f1 m f2 l2); [|done|done|done].
      eapply serve_theirs; [done| |done]. congruence.
  Qed.
  Lemma Inv_init : Inv ∅ ∅.
  Proof using. split_and!; intros; unfold is_file; rewrite ?lookup_empty; done. Qed.
End Map.

(** ** Names of transferred files *)
Lemma name_segments name : valid_name name = true → absolute name = false ∧ [dot; dot] ∉ segments name.
Proof.
  unfold valid_name. rewrite andb_true_iff, forallb_forall. intros [_ Hc]. split.
  - destruct (absolute name) eqn:E; [|done]. specialize (Hc RootDir). unfold components in Hc. rewrite E in Hc. discriminate Hc. by left.
  - intros Hin. specialize (Hc ParentDir). discriminate Hc. unfold components. apply in_or_app. right. apply elem_of_list_In, elem_of_list_fmap.
    exists [dot; dot]. split; [|done]. by rewrite bool_decide_eq_true_2.
Qed.
Lemma transfer_resolve dir cid name path : good_dir dir → transfer_path dir cid name = Some path → resolve path = home dir cid ++ segments name.
Proof.
  intros Hd. unfold transfer_path. destruct (valid_name name) eqn:E; [|done]. intros [= <-]. destruct (name_segments _ E) as [Ha Hs].
  unfold push. rewrite Ha, <- app_assoc. cbn [app]. by apply resolve_in.
Qed.

(** ** Who is asked *)
(** the state after some events *)
Definition oafter (x : rx_st) (es : list oev) : rx_st := foldl (λ x e, (ostep x e).1) x es.
Lemma orun_after x es es' : orun x (es ++ es') = orun x es ++ orun (oafter x es) es'.
Proof.
  revert x. induction es as [|e es IH]; intros x; [done|]. cbn [app orun oafter foldl]. destruct (ostep x e) as [x1 l] eqn:E. rewrite IH, app_assoc. done.
Qed.
Lemma waiting_asked es id : id ∈ w_waiting (oafter orx0 es) → Asked id ∈ orun orx0 es.
Proof.
  induction es as [|e es IH] using rev_ind; [done|]. rewrite orun_after. unfold oafter. rewrite foldl_app. fold (oafter orx0 es). cbn [foldl orun].
  set (x := oafter orx0 es) in *. rewrite elem_of_app. destruct e as [o|id'|id'|id']; cbn [ostep].
  - case_bool_decide; [by intros ?; left; apply IH|]. destruct (o_level o); cbn; [by intros ?; left; apply IH|].
    rewrite elem_of_union, elem_of_singleton. intros [->|?]; [right; by left|left; by apply IH].
  - case_bool_decide; cbn; [rewrite elem_of_difference; intros [? _]; left; by apply IH|intros ?; left; by apply IH].
  - case_bool_decide; cbn; [rewrite elem_of_difference; intros [? _]; left; by apply IH|intros ?; left; by apply IH].
  - cbn. intros ?; left; by apply IH.
Qed.
Lemma opened_cause es id : Opened id ∈ orun orx0 es →
  (∃ es1 es2, es = es1 ++ Accepts id :: es2 ∧ Asked id ∈ orun orx0 es1) ∨ (∃ o l, Arrives o ∈ es ∧ o_id o = id ∧ o_level o = Some l).
Proof.
  induction es as [|e es IH] using rev_ind; [by intros ?%elem_of_nil|]. rewrite orun_after, elem_of_app. intros [H|H].
  - destruct (IH H) as [(es1 & es2 & -> & ?)|(o & l & ? & ? & ?)].
    + left. exists es1, (es2 ++ [e]). split; [by rewrite <- app_assoc|done].
    + right. exists o, l. rewrite elem_of_app. auto.
  - cbn [orun] in H. destruct (ostep (oafter orx0 es) e) as [x' l] eqn:E. rewrite app_nil_r in H.
    destruct e as [o|id'|id'|id']; cbn [ostep] in E.
    + case_bool_decide; [injection E as <- <-; by apply elem_of_nil in H|]. destruct (o_level o) eqn:El; injection E as <- <-; apply elem_of_list_singleton in H; [|done].
      injection H as ->. right. exists o, n. rewrite elem_of_app, elem_of_list_singleton. auto.
    + case_bool_decide as Hw; injection E as <- <-; [|by apply elem_of_nil in H]. apply elem_of_list_singleton in H. injection H as ->.
      left. exists es, []. split; [done|]. by apply waiting_asked.
    + case_bool_decide; injection E as <- <-; by apply elem_of_nil in H.
    + injection E as <- <-. by apply elem_of_nil in H.
Qed.
Definition no_level (es : list oev) : Prop := ∀ o, Arrives o ∈ es → o_level o = None.
Lemma opened_count es : ∀ x id, no_level es →
  (length (filter (λ d, d = Opened id) (orun x es)) <= length (filter (λ e, match e with Accepts i => bool_decide (i = id) | _ => false end = true) es))%nat.
Proof.
  induction es as [|e es IH]; intros x id Hn; [done|]. assert (Hn' : no_level es) by (intros o Ho; apply Hn; by right).
  cbn [orun]. destruct (ostep x e) as [x' l] eqn:E. rewrite filter_app, app_length. specialize (IH x' id Hn').
  enough ((length (filter (λ d, d = Opened id) l) <= (if decide (match e with Accepts i => bool_decide (i = id) | _ => false end = true) then 1 else 0))%nat).
  { rewrite filter_cons. destruct (decide _); cbn [length]; lia. }
  destruct e as [o|id'|id'|id']; cbn [ostep] in E.
  - case_bool_decide; [by injection E as <- <-|]. rewrite (Hn o ltac:(left)) in E. injection E as <- <-. rewrite filter_cons, decide_False by done. cbn. lia.
  - destruct (decide (id' = id)) as [->|Hne].
    + rewrite decide_True by (by rewrite bool_decide_eq_true_2). case_bool_decide; injection E as <- <-; [|cbn; lia]. rewrite filter_cons. case_decide; cbn; lia.
    + case_bool_decide; injection E as <- <-; [rewrite filter_cons, decide_False by congruence|]; cbn; lia.
  - case_bool_decide; injection E as <- <-; cbn; lia.
  - injection E as <- <-. cbn. lia.
Qed.
Lemma not_waiting es : ∀ x id, id ∉ w_waiting x → (∀ o, Arrives o ∈ es → o_id o ≠ id) → Opened id ∉ orun x es.
Proof.
  induction es as [|e es IH]; intros x id Hw Hn; [by apply not_elem_of_nil|]. cbn [orun]. destruct (ostep x e) as [x' l] eqn:E.
  assert (Hn' : ∀ o, Arrives o ∈ es → o_id o ≠ id) by (intros o Ho; apply Hn; by right).
  enough (Opened id ∉ l ∧ id ∉ w_waiting x') as [H1 H2] by (rewrite elem_of_app; intros [?|?]; [done|]; by apply (IH x' id)).
  destruct e as [o|id'|id'|id']; cbn [ostep] in E.
  - assert (Ho : o_id o ≠ id) by (apply Hn; by left).
    case_bool_decide; [injection E as <- <-; split; [apply not_elem_of_nil|done]|].
    destruct (o_level o); injection E as <- <-; cbn [w_waiting]; split; rewrite ?elem_of_list_singleton, ?elem_of_union, ?elem_of_singleton; try done; [congruence|].
    intros [?|?]; [congruence|done].
  - case_bool_decide as Hb; injection E as <- <-; [|split; [apply not_elem_of_nil|done]]. cbn [w_waiting]. rewrite elem_of_list_singleton, elem_of_difference.
    split; [intros [= ->]; done|by intros [? _]].
  - case_bool_decide as Hb; injection E as <- <-; cbn [w_waiting]; split; try apply not_elem_of_nil; [rewrite elem_of_difference; by intros [? _]|done].
  - injection E as <- <-. split; [apply not_elem_of_nil|done].
Qed.
Lemma declined_gone es1 es2 id : (∀ o, Arrives o ∈ es2 → o_id o ≠ id) →
  Opened id ∉ orun (oafter orx0 (es1 ++ [Declines id])) es2.
Proof.
  intros Hn. apply not_waiting; [|done]. unfold oafter. rewrite foldl_app. cbn [foldl ostep]. case_bool_decide; cbn [w_waiting fst]; [|done].
  rewrite elem_of_difference, elem_of_singleton. by intros [_ ?].
Qed.
