From Coq Require Import ZifyBool ZifyNat ZifyN.
From stdpp Require Import prelude gmap.
From Verif Require Import PeerClient_Model PeerClient_Spec.
Local Open Scope N_scope.

Lemma crun_ind (I : client → ctrace → Prop) :
  (∀ c tr e c' os, I c tr → on_event c e = Some (c', os) → I c' (tr ++ [(e, os)])) →
  ∀ es c tr c' tr', I c tr → crun c es = Some (c', tr') → I c' (tr ++ tr').
Proof.
  intros Hstep es. induction es as [|e es IH]; intros c tr c' tr' HI Hr; cbn [crun] in Hr.
  - injection Hr as <- <-. by rewrite app_nil_r.
  - destruct (on_event c e) as [[c1 os]|] eqn:E; [|done].
    destruct (crun c1 es) as [[c2 tr2]|] eqn:E2; [|done]. injection Hr as <- <-.
    rewrite cons_middle, app_assoc. eapply IH; [|done]. by eapply Hstep.
Qed.
Lemma crun_inv (I : client → ctrace → Prop) c0 :
  I c0 [] → (∀ c tr e c' os, I c tr → on_event c e = Some (c', os) → I c' (tr ++ [(e, os)])) →
  ∀ es c tr, crun c0 es = Some (c, tr) → I c tr.
Proof. intros H0 Hs es c tr Hr. apply (crun_ind I Hs es c0 [] c tr H0 Hr). Qed.
Lemma crun_events c es c' tr : crun c es = Some (c', tr) → tr.*1 = es.
Proof.
  revert c c' tr. induction es as [|e es IH]; intros c c' tr Hr; cbn [crun] in Hr.
  - by injection Hr as <- <-.
  - destruct (on_event c e) as [[c1 os]|] eqn:E; [|done].
    destruct (crun c1 es) as [[c2 tr2]|] eqn:E2; [|done]. injection Hr as <- <-. cbn. by rewrite (IH _ _ _ E2).
Qed.

Lemma create_link_inv c p id k r :
  create_link c p id k = Some r →
  is_Some (cl_pws c !! p) ∧
  match r with
  | None => ∃ v, cl_links c !! p = Some v ∧ vl_active v = true
  | Some c' => (∀ v, cl_links c !! p = Some v → vl_active v = false) ∧
      c' = with_links (with_stale c (delete p (cl_stale c))) (<[p := mk_vlink id k true 0]> (cl_links c))
  end.
Proof.
  unfold create_link. destruct (cl_pws c !! p) as [w|] eqn:E; [|done].
  destruct (cl_links c !! p) as [v|] eqn:El.
  - destruct (vl_active v) eqn:Ea; intros H; injection H as <-.
    + split; [by eexists|]. by exists v.
    + split; [by eexists|]. split; [|done]. intros v' [= <-]. done.
  - intros H; injection H as <-. split; [by eexists|]. split; [|done]. intros v' [=].
Qed.

(** all an event can do, one case after the other *)
Ltac cases_event H :=
  match type of H with
  | on_event ?c ?e = _ =>
      destruct e as [ucn utk uset upw uresp|dcn dtk dtok|stk srnd sid sg|xp xid|yp yid|zp|ptk psg]; cbn [on_event] in H;
      [ | | destruct sg as [gcn gtok gnote|gcn|gcn [[gu|]|]|gcn [[]|] gset|gcn [gx|] gset gid|gcn [[[gx gy] gw]|] [] gid|gcn []|gcn|gn];
            cbn [on_signal] in H | | | | ]
  end.
Ltac split_ifs H :=
  repeat (cbv zeta in H;
    match type of H with
    | context [match create_link ?a ?b ?c ?d with _ => _ end] => destruct (create_link a b c d) as [[?|]|] eqn:?
    | context [match ?x with _ => _ end] => destruct x eqn:?
    | Some _ = Some _ => fail 1
    end; try discriminate H).

(** how a channel comes about *)
Lemma channel_inv c e c' os t this p id k :
  on_event c e = Some (c', os) → Channel t this p id k ∈ os →
  is_Some (cl_pws c !! p) ∧
  (∀ v, cl_links c !! p = Some v → vl_active v = false) ∧
  cl_links c' = <[p := mk_vlink id k true 0]> (cl_links c) ∧
  cl_stale c' = delete p (cl_stale c) ∧
  cl_tries c' = delete p (cl_tries c) ∧
  handed p os = Some (id, k) ∧ (∀ q, q ≠ p → handed q os = None) ∧
  ∃ tk rnd i m cn, t = channel_ticket c p tk ∧ cl_kems c !! p = Some m ∧ km_id m = id ∧ cn.1 = p ∧ cn.2 = this ∧
    ((∃ j, e = Signal tk rnd i (GStage1 cn (Some k) true j) ∧ km_ctor m = Some (Asking k.1.1) ∧ km_pw m = k.2) ∨
     (e = Signal tk rnd i (GStage2 cn true) ∧ km_ctor m = Some (Answering k))).
Proof.
  intros H Hin. cases_event H.
  all: split_ifs H; injection H as <- <-; rewrite ?elem_of_cons, ?elem_of_nil in Hin.
  all: try (destruct_or! Hin; done).
  - (* GStage1 *)
    destruct Hin as [?|[Hin|[]]]; [done|]. injection Hin as -> -> -> -> ->.
    match goal with E : create_link _ _ _ _ = _ |- _ => apply create_link_inv in E as [Hp [Hna ->]] end.
    cbn [with_links with_stale with_kems with_tries cl_links cl_stale cl_kems cl_tries cl_pws] in *.
    split; [done|]. split; [done|]. split; [done|]. split; [done|]. split; [done|].
    split; [cbn [handed]; by rewrite N.eqb_refl|].
    split; [intros q Hq; cbn [handed]; destruct (N.eqb_spec gcn.1 q); [by subst|done]|].
    match goal with E : cl_kems c !! _ = Some ?m |- _ => rename m into m0; rename E into Em end.
    match goal with E : _ && _ = true |- _ => apply andb_true_iff in E as [E1%bool_decide_eq_true E2%N.eqb_eq] end.
    eexists stk, srnd, sid, m0, gcn.
    split; [done|]. split; [done|]. split; [done|]. split; [done|]. split; [done|].
    left. eexists. split; [done|]. cbn. split; [congruence|done].
  - (* GStage2 *)
    destruct Hin as [Hin|[]]. injection Hin as -> -> -> -> ->.
    match goal with E : create_link _ _ _ _ = _ |- _ => apply create_link_inv in E as [Hp [Hna ->]] end.
    cbn [with_links with_stale with_kems with_tries cl_links cl_stale cl_kems cl_tries cl_pws] in *.
    split; [done|]. split; [done|]. split; [done|]. split; [done|]. split; [done|].
    split; [cbn [handed]; by rewrite N.eqb_refl|].
    split; [intros q Hq; cbn [handed]; destruct (N.eqb_spec gcn.1 q); [by subst|done]|].
    match goal with E : cl_kems c !! _ = Some ?m |- _ => rename m into m0; rename E into Em end.
    eexists stk, srnd, sid, m0, gcn.
    split; [done|]. split; [done|]. split; [done|]. split; [done|]. split; [done|].
    right. split; [done|]. congruence.
Qed.

Lemma handed_in p os id k : handed p os = Some (id, k) → ∃ t this, Channel t this p id k ∈ os.
Proof.
  induction os as [|o os IH]; [done|]. cbn [handed]. destruct o as [| |t this q i j|]; intros H.
  1,2,4: destruct (IH H) as (t' & th & Hin); exists t', th; by right.
  destruct (N.eqb_spec q p) as [->|].
  - injection H as <- <-. exists t, this. by left.
  - destruct (IH H) as (t' & th & Hin); exists t', th; by right.
Qed.
Lemma handed_none p os : handed p os = None ↔ ∀ o, o ∈ os → ¬ channel_for p o.
Proof.
  induction os as [|o os IH].
  - split; [intros _ o Ho; by apply elem_of_nil in Ho|done].
  - cbn [handed]. destruct o as [| |t this q i j|].
    1,2,4: rewrite IH; split; [intros H o' [->|Ho]%elem_of_cons; [by intros []|by apply H]|intros H o' Ho; apply H; by right].
    destruct (N.eqb_spec q p) as [->|Hq].
    + split; [done|]. intros H. exfalso. apply (H (Channel t this p i j)); [by left|done].
    + rewrite IH. split; [intros H o' [->|Ho]%elem_of_cons; [done|by apply H]|intros H o' Ho; apply H; by right].
Qed.

(** Passwords *)
Lemma pws_event c e c' os p w :
  on_event c e = Some (c', os) → cl_pws c' !! p = Some w → cl_pws c !! p = Some w ∨ speaks_with p w e.
Proof.
  intros H Hp. cases_event H.
  { injection H as <- <-. cbn in Hp. destruct (decide (ucn.2 = p)) as [<-|Hn].
    - right. rewrite lookup_insert in Hp. injection Hp as <-. done.
    - left. by rewrite lookup_insert_ne in Hp. }
  all: left; split_ifs H; injection H as <- _; try done.
  all: try match goal with E : create_link _ _ _ _ = _ |- _ => apply create_link_inv in E as [? [? ->]] end; try done.
  all: unfold drop_link in Hp; destruct (cl_links c !! _) in Hp; done.
Qed.
Lemma pws_kept c e c' os p : on_event c e = Some (c', os) → is_Some (cl_pws c !! p) → is_Some (cl_pws c' !! p).
Proof.
  intros H Hp. cases_event H.
  { injection H as <- <-. cbn. destruct (decide (ucn.2 = p)) as [<-|Hn].
    - rewrite lookup_insert. by eexists.
    - by rewrite lookup_insert_ne. }
  all: split_ifs H; injection H as <- _; try done.
  all: try match goal with E : create_link _ _ _ _ = _ |- _ => apply create_link_inv in E as [? [? ->]] end; try done.
  all: unfold drop_link; destruct (cl_links c !! _); done.
Qed.
Lemma pws_spoken cid peers es c tr p w :
  crun (client_init cid peers) es = Some (c, tr) → cl_pws c !! p = Some w → Exists (speaks_with p w) es.
Proof.
  intros Hr. rewrite <- (crun_events _ _ _ _ Hr). revert es c tr Hr.
  apply (crun_inv (λ c tr, cl_pws c !! p = Some w → Exists (speaks_with p w) tr.*1)); [done|].
  intros c tr e c' os IH He Hp. rewrite fmap_app. apply Exists_app. cbn.
  destruct (pws_event _ _ _ _ _ _ He Hp) as [H|H]; [by left; apply IH|right; by constructor].
Qed.
Lemma spoken_pws cid peers es c tr p :
  crun (client_init cid peers) es = Some (c, tr) → Exists (speaks_of p) es → is_Some (cl_pws c !! p).
Proof.
  intros Hr. rewrite <- (crun_events _ _ _ _ Hr). revert es c tr Hr.
  apply (crun_inv (λ c tr, Exists (speaks_of p) tr.*1 → is_Some (cl_pws c !! p))).
  { intros H. inversion H. }
  intros c tr e c' os IH He. rewrite fmap_app, Exists_app. intros [H|H].
  - eapply pws_kept; [done|by apply IH].
  - cbn in H. apply Exists_cons in H as [H|H]; [|inversion H]. destruct e; try done. cbn in H, He.
    injection He as <- <-. cbn. rewrite H, lookup_insert. by eexists.
Qed.

Lemma panic_inv c e :
  on_event c e = None →
  ∃ tk rnd i s p, e = Signal tk rnd i s ∧ cl_pws c !! p = None ∧
    ((∃ cn k j, s = GStage1 cn (Some k) true j ∧ cn.1 = p) ∨ (∃ cn, s = GStage2 cn true ∧ cn.1 = p)).
Proof.
  intros H. cases_event H.
  all: split_ifs H; try discriminate H.
  all: match goal with E : create_link ?a ?p _ _ = None |- _ =>
         assert (cl_pws c !! p = None) as Hn by (unfold create_link in E; cbn in E; destruct (cl_pws c !! p); [|done];
           destruct (cl_links c !! p) as [v|]; [destruct (vl_active v)|]; done) end.
  - do 5 eexists. split; [done|]. split; [done|]. left. eauto 6.
  - do 5 eexists. split; [done|]. split; [done|]. right. eauto.
Qed.

(** The connection the user has *)
Lemma links_event c e c' os p v :
  on_event c e = Some (c', os) → cl_links c !! p = Some v → handed p os = None →
  ends (cl_cid c) p (vl_id v) e = false →
  ∃ n, cl_links c' !! p = Some (mk_vlink (vl_id v) (vl_key v) (vl_active v) n).
Proof.
  intros H Hl Hh He.
  assert (cl_links c !! p = Some (mk_vlink (vl_id v) (vl_key v) (vl_active v) (vl_version v))) as Hl' by (by destruct v).
  cases_event H.
  all: split_ifs H; injection H as <- <-; try (by eexists).
  all: try match goal with E : create_link _ _ _ _ = _ |- _ => apply create_link_inv in E as [? [? ->]] end.
  - (* GDisconnect *)
    match goal with E : match gtok with _ => _ end = false |- _ => rename E into Et end.
    cbn in He. fold (other_party (cl_cid c) gcn) in He. unfold drop_link.
    destruct (decide (other_party (cl_cid c) gcn = p)) as [Htp|Hn].
    + exfalso. rewrite Htp in He, Et. rewrite bool_decide_eq_true_2 in He by done. cbn in He.
      destruct gtok as [t0|]; [|done]. rewrite Hl in Et. apply negb_false_iff in Et. rewrite N.eqb_sym in He. congruence.
    + destruct (cl_links c !! other_party (cl_cid c) gcn) as [u|]; [|by eexists]. cbn.
      rewrite lookup_delete_ne by done. by eexists.
  - (* GStage1 *)
    cbn [handed with_links cl_links with_kems with_tries] in *. destruct (N.eqb_spec gcn.1 p) as [->|Hn]; [done|]. rewrite lookup_insert_ne by done. by eexists.
  - (* GStage2 *)
    cbn [handed with_links cl_links with_kems with_tries] in *. destruct (N.eqb_spec gcn.1 p) as [->|Hn]; [done|]. rewrite lookup_insert_ne by done. by eexists.
  - (* Dropped *)
    cbn in He |- *. destruct (N.eqb_spec xp p) as [->|Hn]; [|rewrite lookup_insert_ne by done; by eexists].
    exfalso. match goal with E : cl_links c !! p = Some ?u |- _ => assert (u = v) by congruence; subst u end.
    cbn in He. rewrite N.eqb_sym in He. congruence.
  - cbn in He |- *. unfold drop_link. destruct (N.eqb_spec yp p) as [->|Hn].
    { exfalso. match goal with E : cl_links c !! p = Some ?u |- _ => assert (u = v) by congruence; subst u end.
      cbn in He. rewrite N.eqb_sym in He. congruence. }
    destruct (cl_links c !! yp); [|by eexists]. cbn. rewrite lookup_delete_ne by done. by eexists.
  - cbn in He |- *. unfold drop_link. destruct (N.eqb_spec yp p) as [->|Hn].
    { exfalso. match goal with E : cl_links c !! p = Some ?u |- _ => assert (u = v) by congruence; subst u end.
      cbn in He. rewrite N.eqb_sym in He. congruence. }
    destruct (cl_links c !! yp); [|by eexists]. cbn. rewrite lookup_delete_ne by done. by eexists.
  - cbn in He |- *. unfold drop_link. destruct (N.eqb_spec yp p) as [->|Hn].
    { exfalso. match goal with E : cl_links c !! p = Some ?u |- _ => assert (u = v) by congruence; subst u end.
      cbn in He. rewrite N.eqb_sym in He. congruence. }
    destruct (cl_links c !! yp); [|by eexists]. cbn. rewrite lookup_delete_ne by done. by eexists.
  - (* Rekeyed *)
    cbn. destruct (decide (zp = p)) as [->|Hn]; [|rewrite lookup_insert_ne by done; by eexists].
    rewrite lookup_insert. match goal with E : cl_links c !! p = Some ?u |- _ => assert (u = v) by congruence; subst u end. by eexists.
Qed.

Lemma cid_event c e c' os : on_event c e = Some (c', os) → cl_cid c' = cl_cid c.
Proof.
  intros H. cases_event H.
  all: split_ifs H; injection H as <- _; try done.
  all: try match goal with E : create_link _ _ _ _ = _ |- _ => apply create_link_inv in E as [? [? ->]] end; try done.
  all: unfold drop_link; destruct (cl_links c !! _); done.
Qed.

(** one event with a channel or without *)
Lemma event_cases c e c' os p :
  on_event c e = Some (c', os) →
  handed p os = None ∨ ∃ t this id k, Channel t this p id k ∈ os ∧ handed p os = Some (id, k).
Proof.
  intros H. destruct (handed p os) as [[id k]|] eqn:E; [right|by left].
  destruct (handed_in _ _ _ _ E) as (t & this & Hin). by exists t, this, id, k.
Qed.

Lemma current_live cid peers p es c tr :
  crun (client_init cid peers) es = Some (c, tr) →
  cl_cid c = cid ∧
  ∀ id k, current cid p tr = Some (id, k) → ∃ n, cl_links c !! p = Some (mk_vlink id k true n).
Proof.
  revert es c tr.
  apply (crun_inv (λ c tr, cl_cid c = cid ∧
    ∀ id k, current cid p tr = Some (id, k) → ∃ n, cl_links c !! p = Some (mk_vlink id k true n))); [done|].
  intros c tr e c' os [Hc IH] He. split; [by rewrite (cid_event _ _ _ _ He)|].
  intros id k. unfold current. rewrite foldl_app. cbn [foldl]. fold (current cid p tr). unfold after_event. cbn [fst snd].
  destruct (event_cases _ _ _ _ p He) as [Hn|(t & this & i & k' & Hin & Hh)].
  - rewrite Hn. destruct (current cid p tr) as [[i j]|] eqn:Ec; [|done].
    destruct (IH i j eq_refl) as [n Hl]. destruct (ends cid p i e) eqn:Ee; [done|]. intros [= -> ->].
    destruct (links_event _ _ _ _ _ _ He Hl Hn) as [n' Hl']; [by rewrite Hc|]. by exists n'.
  - rewrite Hh. intros [= <- <-].
    apply (channel_inv _ _ _ _ _ _ _ _ _ He) in Hin as (_ & _ & -> & _). exists 0. by rewrite lookup_insert.
Qed.

(** what keys are around *)
Lemma keys_event c e c' os p :
  on_event c e = Some (c', os) → handed p os = None →
  (∀ v, cl_links c' !! p = Some v → ∃ u, cl_links c !! p = Some u ∧ vl_key u = vl_key v ∧ vl_id u = vl_id v) ∧
  (∀ k n, cl_stale c' !! p = Some (k, n) →
     cl_stale c !! p = Some (k, n) ∨ ∃ u, cl_links c !! p = Some u ∧ vl_key u = k).
Proof.
  intros H Hh. cases_event H.
  all: split_ifs H; injection H as <- <-; try (split; [intros v9 Hv9; by exists v9|by left]).
  all: try match goal with E : create_link _ _ _ _ = _ |- _ => apply create_link_inv in E as [? [? ->]] end.
  2,3: cbn [handed] in Hh; (destruct (N.eqb_spec gcn.1 p) as [->|Hn]; [done|]);
    cbn [with_links with_stale with_kems with_tries cl_links cl_stale cl_kems cl_tries cl_pws];
    rewrite lookup_insert_ne, lookup_delete_ne by done; (split; [intros v9 Hv9; by exists v9|by left]).
  all: try match goal with |- context [<[?q := _]> (cl_links ?d)] =>
         cbn; (destruct (decide (q = p)) as [->|Hn];
           [rewrite lookup_insert|rewrite lookup_insert_ne by done; (split; [intros v9 Hv9; by exists v9|by left])]);
         match goal with E : cl_links d !! _ = Some ?u |- _ => (split; [intros v' [= <-]; by exists u|by left]) end end.
  all: match goal with |- context [drop_link ?d ?q] =>
    cbn [with_links with_stale with_kems with_tries cl_links cl_stale cl_kems cl_tries cl_pws];
    unfold drop_link; destruct (cl_links d !! q) as [u|] eqn:Eu; cbn; [|(split; [intros v9 Hv9; by exists v9|by left])];
    destruct (decide (q = p)) as [<-|Hn];
    [rewrite lookup_delete, lookup_insert; (split; [done|]); intros k' n' [= <- <-]; right; by exists u
    |rewrite lookup_delete_ne, lookup_insert_ne by done; (split; [intros v9 Hv9; by exists v9|by left])] end.
Qed.

Lemma latest_keys cid peers p es c tr :
  crun (client_init cid peers) es = Some (c, tr) →
  (∀ v, cl_links c !! p = Some v → latest p tr = Some (vl_id v, vl_key v)) ∧
  (∀ k n, cl_stale c !! p = Some (k, n) → ∃ id, latest p tr = Some (id, k)).
Proof.
  revert es c tr.
  apply (crun_inv (λ c tr,
    (∀ v, cl_links c !! p = Some v → latest p tr = Some (vl_id v, vl_key v)) ∧
    (∀ k n, cl_stale c !! p = Some (k, n) → ∃ id, latest p tr = Some (id, k)))); [done|].
  intros c tr e c' os [IH1 IH2] He. unfold latest. rewrite foldl_app. cbn [foldl fst snd]. fold (latest p tr).
  destruct (event_cases _ _ _ _ p He) as [Hn|(t & this & i & k' & Hin & Hh)].
  - rewrite Hn. destruct (keys_event _ _ _ _ _ He Hn) as [K1 K2]. split.
    + intros v Hv. destruct (K1 v Hv) as (u & Hu & <- & <-). by apply IH1.
    + intros k n Hk. destruct (K2 k n Hk) as [Hs|(u & Hu & <-)]; [by eapply IH2|eexists; by apply IH1].
  - rewrite Hh. apply (channel_inv _ _ _ _ _ _ _ _ _ He) in Hin as (_ & _ & -> & -> & _). split.
    + intros v. rewrite lookup_insert. by intros [= <-].
    + intros k n. by rewrite lookup_delete.
Qed.

(** tickets *)
Lemma tries_event c e c' os p :
  on_event c e = Some (c', os) → handed p os = None →
  match e with
  | UConnect cn tk set _ _ => if cn.2 =? p then cl_tries c' !! p = Some (tk, set) else cl_tries c' !! p = cl_tries c !! p
  | StreamEnded q _ => cl_tries c' !! p = cl_tries c !! p ∨ q = p ∧ cl_tries c' !! p = None
  | _ => cl_tries c' !! p = cl_tries c !! p
  end.
Proof.
  intros H Hh. cases_event H.
  { injection H as <- <-. cbn. destruct (N.eqb_spec ucn.2 p) as [->|Hn]; [by rewrite lookup_insert|by rewrite lookup_insert_ne]. }
  all: split_ifs H; injection H as <- <-; try done; try (by left).
  all: try match goal with E : create_link _ _ _ _ = _ |- _ => apply create_link_inv in E as [? [? ->]] end.
  - unfold drop_link. destruct (cl_links c !! _); done.
  - cbn [handed] in Hh. (destruct (N.eqb_spec gcn.1 p) as [->|Hn]; [done|]). cbn. by rewrite lookup_delete_ne.
  - cbn [handed] in Hh. (destruct (N.eqb_spec gcn.1 p) as [->|Hn]; [done|]). cbn. by rewrite lookup_delete_ne.
  - cbn. assert (cl_tries (drop_link c yp) = cl_tries c) as -> by (unfold drop_link; destruct (cl_links c !! yp); done).
    destruct (decide (yp = p)) as [->|Hn]; [right; by rewrite lookup_delete|left; by rewrite lookup_delete_ne].
  - left. unfold drop_link; destruct (cl_links c !! yp); done.
  - left. unfold drop_link; destruct (cl_links c !! yp); done.
Qed.

Lemma tries_open cid peers p es c tr :
  crun (client_init cid peers) es = Some (c, tr) →
  (∀ t s, cl_tries c !! p = Some (t, s) → open_ticket p tr = Some t) ∧
  (∀ t, open_ticket p tr = Some t → stream_since p tr = false → ∃ s, cl_tries c !! p = Some (t, s)).
Proof.
  revert es c tr.
  apply (crun_inv (λ c tr,
    (∀ t s, cl_tries c !! p = Some (t, s) → open_ticket p tr = Some t) ∧
    (∀ t, open_ticket p tr = Some t → stream_since p tr = false → ∃ s, cl_tries c !! p = Some (t, s)))); [done|].
  intros c tr e c' os [IH1 IH2] He. unfold open_ticket, stream_since. rewrite !foldl_app. cbn [foldl fst snd].
  fold (open_ticket p tr) (stream_since p tr).
  destruct (event_cases _ _ _ _ p He) as [Hn|(t & this & i & k' & Hin & Hh)].
  - rewrite Hn. pose proof (tries_event _ _ _ _ p He Hn) as Ht. destruct e as [cn tk set pw resp| | | |q j| |].
    + destruct (N.eqb_spec cn.2 p).
      * rewrite Ht. split; [congruence|]. intros t [= <-] _. by eexists.
      * rewrite Ht. done.
    + by rewrite Ht.
    + by rewrite Ht.
    + by rewrite Ht.
    + destruct Ht as [->|[-> ->]].
      * split; [done|]. intros t Ho. destruct (q =? p); [done|]. by apply IH2.
      * split; [done|]. intros t Ho. by rewrite N.eqb_refl.
    + by rewrite Ht.
    + by rewrite Ht.
  - rewrite Hh. apply (channel_inv _ _ _ _ _ _ _ _ _ He) in Hin as (_ & _ & _ & _ & -> & _).
    rewrite lookup_delete. done.
Qed.

(** passwords of the handshakes *)
Lemma bidden_prefix p es e : bidden p (es ++ [e]) → bidden p es ∧ (begins p e → Exists (speaks_of p) es).
Proof.
  intros H. split.
  - intros i d Hi Hb. destruct (H i d) as (j & d' & Hj & Hd & Hs); [by apply lookup_app_l_Some|done|].
    exists j, d'. split; [done|]. split; [|done]. apply lookup_lt_Some in Hi. rewrite lookup_app_l in Hd by lia. done.
  - intros Hb. destruct (H (length es) e) as (j & d & Hj & Hd & Hs); [by rewrite lookup_app_r, Nat.sub_diag|done|].
    rewrite lookup_app_l in Hd by done. apply Exists_exists. exists d. split; [by eapply elem_of_list_lookup_2|done].
Qed.
Lemma kems_event c e c' os p m :
  on_event c e = Some (c', os) → cl_kems c' !! p = Some m →
  (km_pw m = password_for c p ∧ begins p e ∧
     match km_ctor m with Some (Answering k) => k.2 = km_pw m | _ => True end) ∨
  ∃ m0, cl_kems c !! p = Some m0 ∧ km_pw m = km_pw m0 ∧ (km_ctor m = km_ctor m0 ∨ km_ctor m = None).
Proof.
  intros H Hm. cases_event H.
  all: split_ifs H; injection H as <- _; try (right; exists m; by auto).
  all: try match goal with E : create_link _ _ _ _ = _ |- _ => apply create_link_inv in E as [? [? ->]] end.
  all: try (unfold drop_link in Hm; destruct (cl_links c !! _) in Hm; right; exists m; by auto).
  all: cbn [with_links with_stale with_kems with_tries cl_links cl_stale cl_kems cl_tries cl_pws] in Hm.
  all: try (assert (cl_kems (drop_link c yp) = cl_kems c) as Hd by (unfold drop_link; destruct (cl_links c !! yp); done);
    rewrite ?Hd in Hm; right; exists m; (split; [|by auto]); (eapply lookup_delete_Some in Hm as [_ ?]; done) || done).
  all: match type of Hm with
    | <[?q := _]> _ !! ?pp = _ =>
        destruct (decide (q = pp)) as [<-|Hn]; [rewrite lookup_insert in Hm; injection Hm as <-|rewrite lookup_insert_ne in Hm by done]
    | _ => idtac
    end.
  all: try (apply lookup_delete_Some in Hm as [_ Hm]).
  all: try (right; exists m; by auto).
  all: try (left; by (split; [done|])).
  all: right; match goal with E : cl_kems _ !! _ = Some ?x |- _ => exists x end; (split; [done|]); (split; [done|]); by right.
Qed.

Lemma bidden_pw cid peers p es c tr :
  crun (client_init cid peers) es = Some (c, tr) → bidden p es →
  ∀ m, cl_kems c !! p = Some m →
    Exists (speaks_with p (km_pw m)) es ∧ match km_ctor m with Some (Answering k) => k.2 = km_pw m | _ => True end.
Proof.
  intros Hr0. rewrite <- (crun_events _ _ _ _ Hr0).
  cut (cl_pws c !! p = cl_pws c !! p ∧ (bidden p tr.*1 →
    (∀ w, cl_pws c !! p = Some w → Exists (speaks_with p w) tr.*1) ∧
    (Exists (speaks_of p) tr.*1 → is_Some (cl_pws c !! p)) ∧
    ∀ m, cl_kems c !! p = Some m →
    Exists (speaks_with p (km_pw m)) tr.*1 ∧ match km_ctor m with Some (Answering k) => k.2 = km_pw m | _ => True end)).
  { intros [_ H] Hb. by apply H. }
  split; [done|]. revert Hr0. revert es c tr.
  apply (crun_inv (λ c tr, bidden p tr.*1 →
    (∀ w, cl_pws c !! p = Some w → Exists (speaks_with p w) tr.*1) ∧
    (Exists (speaks_of p) tr.*1 → is_Some (cl_pws c !! p)) ∧
    ∀ m, cl_kems c !! p = Some m →
    Exists (speaks_with p (km_pw m)) tr.*1 ∧ match km_ctor m with Some (Answering k) => k.2 = km_pw m | _ => True end)).
  { intros _. split; [done|]. split; [intros H; inversion H|done]. }
  intros c tr e c' os IH He. rewrite fmap_app. cbn [fmap list_fmap]. cbn. intros Hb.
  apply bidden_prefix in Hb as [Hb Hbeg]. destruct (IH Hb) as (I1 & I2 & I3). split; [|split].
  - intros w Hw. apply Exists_app. destruct (pws_event _ _ _ _ _ _ He Hw) as [H|H]; [left; by apply I1|right; by constructor].
  - rewrite Exists_app. intros [H|H].
    + eapply pws_kept; [done|by apply I2].
    + apply Exists_cons in H as [H|H]; [|inversion H]. destruct e; try done. cbn in H, He.
      injection He as <- <-. cbn. rewrite H, lookup_insert. by eexists.
  - intros m Hm. destruct (kems_event _ _ _ _ _ _ He Hm) as [(Hw & Hg & Hc)|(m0 & Hm0 & Hw & Hc)].
    + split; [|done]. apply Exists_app. left. destruct (I2 (Hbeg Hg)) as [w Hw']. rewrite Hw. unfold password_for. rewrite Hw'.
      by apply I1.
    + destruct (I3 m0 Hm0) as [J1 J2]. split; [apply Exists_app; left; by rewrite Hw|].
      destruct Hc as [->| ->]; [|done]. by rewrite Hw.
Qed.

(** the run up to one event *)
Lemma crun_at c es c' tr i e os :
  crun c es = Some (c', tr) → tr !! i = Some (e, os) →
  ∃ c1 c2, crun c (take i es) = Some (c1, take i tr) ∧ on_event c1 e = Some (c2, os) ∧ es !! i = Some e ∧
    crun c (take (S i) es) = Some (c2, take (S i) tr).
Proof.
  revert c c' tr i. induction es as [|d es IH]; intros c c' tr i Hr Hi; cbn [crun] in Hr.
  - injection Hr as <- <-. done.
  - destruct (on_event c d) as [[c1 o1]|] eqn:E; [|done].
    destruct (crun c1 es) as [[c2 tr2]|] eqn:E2; [|done]. injection Hr as <- <-. destruct i as [|i].
    + cbn in Hi. injection Hi as -> ->. exists c, c1. cbn [take crun]. rewrite E, take_0. cbn. by rewrite take_0.
    + cbn [lookup list_lookup] in Hi. destruct (IH _ _ _ _ E2 Hi) as (d1 & d2 & H1 & H2 & H3 & H4). exists d1, d2.
      rewrite !firstn_cons. cbn [crun]. rewrite E, H1. split; [done|]. split; [done|]. split; [done|].
      change (take (S i) es) with (take (S i) es). by rewrite H4.
Qed.
Lemma crun_none c es :
  crun c es = None → ∃ i e c1 tr1, es !! i = Some e ∧ crun c (take i es) = Some (c1, tr1) ∧ on_event c1 e = None.
Proof.
  revert c. induction es as [|d es IH]; intros c Hr; [done|]. cbn [crun] in Hr.
  destruct (on_event c d) as [[c1 o1]|] eqn:E.
  - destruct (crun c1 es) as [[c2 tr2]|] eqn:E2; [done|]. destruct (IH _ E2) as (i & e & d1 & tr1 & H1 & H2 & H3).
    exists (S i), e, d1, ((d, o1) :: tr1). split; [done|]. split; [|done]. rewrite firstn_cons. cbn [crun]. by rewrite E, H2.
  - exists O, d, c, []. done.
Qed.

(** registered peers *)
Lemma peers_event c e c' os a :
  on_event c e = Some (c', os) →
  cl_peers c' !! a = cl_peers c !! a ∨
  (∃ tk r i p u l, e = Signal tk r i (GRegister (p, a) (Some (Some u))) ∧ cl_peers c !! a = Some l ∧
     cl_peers c' !! a = Some (<[p := u]> l)) ∨
  (∃ tk r i q p l, e = Signal tk r i (GDeregistered (q, p)) ∧ a = cl_cid c ∧ cl_peers c !! a = Some l ∧
     cl_peers c' !! a = Some (delete p l)).
Proof.
  intros H. cases_event H.
  all: split_ifs H; injection H as <- <-; try (by left).
  all: try match goal with E : create_link _ _ _ _ = _ |- _ => apply create_link_inv in E as [? [? ->]] end; try (by left).
  all: try (left; cbn; unfold drop_link; destruct (cl_links c !! _); done).
  - cbn. destruct (decide (cl_cid c = a)) as [<-|Hn]; [|left; by rewrite lookup_insert_ne].
    right. right. destruct gcn as [q p]. eexists stk, srnd, sid, q, p, _. split; [done|]. split; [done|]. split; [done|].
    by rewrite lookup_insert.
  - destruct gcn as [p q]. cbn in *. destruct (decide (q = a)) as [<-|Hn]; [|left; by rewrite lookup_insert_ne].
    right. left. eexists stk, srnd, sid, p, gu, _. split; [done|]. split; [done|]. by rewrite lookup_insert.
Qed.

(** what a handshake under way rests on *)
Definition own_share (ct : option ctor) : option N :=
  match ct with Some (Asking x) => Some x | Some (Answering k) => Some k.1.2 | None => None end.
Lemma shares_event c e c' os p m :
  on_event c e = Some (c', os) → cl_kems c' !! p = Some m →
  km_ctor m = None ∨
  (handed p os = None ∧
   ((∃ tk rnd i cn set, e = Signal tk rnd i (GConnect cn (Some true) set) ∧ cn.1 = p ∧ own_share (km_ctor m) = Some rnd) ∨
    (∃ tk rnd i cn x set j, e = Signal tk rnd i (GStage0 cn x set j) ∧ cn.1 = p ∧ own_share (km_ctor m) = Some rnd))) ∨
  (handed p os = None ∧ ∃ m0, cl_kems c !! p = Some m0 ∧ km_ctor m = km_ctor m0).
Proof.
  intros H Hm. cases_event H.
  all: split_ifs H; injection H as <- <-.
  all: try match goal with E : create_link _ _ _ _ = _ |- _ => apply create_link_inv in E as [? [? ->]] end.
  all: try (right; right; (split; [done|]); exists m; by auto).
  all: try (unfold drop_link in Hm; destruct (cl_links c !! _) in Hm; right; right; (split; [done|]); exists m; by auto).
  all: cbn [with_links with_stale with_kems with_tries cl_links cl_stale cl_kems cl_tries cl_pws] in Hm.
  all: try (assert (cl_kems (drop_link c yp) = cl_kems c) as Hd by (unfold drop_link; destruct (cl_links c !! yp); done);
    rewrite ?Hd in Hm; right; right; (split; [done|]); exists m; (split; [|by auto]); (eapply lookup_delete_Some in Hm as [_ ?]; done) || done).
  all: match type of Hm with
    | <[?q := _]> _ !! ?pp = _ =>
        destruct (decide (q = pp)) as [<-|Hn]; [rewrite lookup_insert in Hm; injection Hm as <-|rewrite lookup_insert_ne in Hm by done]
    | _ => idtac
    end.
  all: try (left; reflexivity).
  all: try (apply lookup_delete_Some in Hm as [? Hm]).
  all: try (right; right; (split; [cbn [handed]; (try match goal with |- context [?a =? ?b] => destruct (N.eqb_spec a b); [by subst|] end); done|]); exists m; by auto).
  all: right; left; (split; [done|]).
  all: try (left; eexists _, _, _, _, _; (split; [reflexivity|]); done).
  all: try (right; eexists _, _, _, _, _, _, _; (split; [reflexivity|]); done).
Qed.
Lemma shares_drawn cid peers p es c tr :
  crun (client_init cid peers) es = Some (c, tr) →
  ∀ m x, cl_kems c !! p = Some m → own_share (km_ctor m) = Some x → x ∈ drawn p tr.
Proof.
  revert es c tr.
  apply (crun_inv (λ c tr, ∀ m x, cl_kems c !! p = Some m → own_share (km_ctor m) = Some x → x ∈ drawn p tr)); [done|].
  intros c tr e c' os IH He m x Hm Hx. unfold drawn. rewrite foldl_app. cbn [foldl fst snd]. fold (drawn p tr).
  destruct (shares_event _ _ _ _ _ _ He Hm) as [H|[[Hh H]|[Hh (m0 & H0 & H1)]]].
  - by rewrite H in Hx.
  - rewrite Hh. destruct H as [(tk & rnd & i & cn & set & -> & <- & Ho)|(tk & rnd & i & cn & y & set & j & -> & <- & Ho)];
      rewrite Hx in Ho; injection Ho as ->; rewrite N.eqb_refl; apply elem_of_list_here.
  - rewrite Hh. rewrite H1 in Hx. specialize (IH _ _ H0 Hx). destruct e as [| |? ? ? s| | | |]; try exact IH.
    destruct s as [| | |cn [[]|] set|cn y set j| | | |]; try exact IH; destruct (cn.1 =? p); try exact IH; by apply elem_of_list_further.
Qed.

Lemma versions_event c e c' os p v :
  on_event c e = Some (c', os) → handed p os = None → cl_links c' !! p = Some v →
  ∃ u, cl_links c !! p = Some u ∧ vl_version v = (match e with Rekeyed q => if q =? p then vl_version u + 1 else vl_version u | _ => vl_version u end).
Proof.
  intros H Hh. cases_event H.
  all: split_ifs H; injection H as <- <-; try (intros Hv9; by exists v).
  all: try match goal with E : create_link _ _ _ _ = _ |- _ => apply create_link_inv in E as [? [? ->]] end.
  2,3: cbn [handed] in Hh; (destruct (N.eqb_spec gcn.1 p) as [->|Hn]; [done|]);
    cbn [with_links with_stale with_kems with_tries cl_links cl_stale cl_kems cl_tries cl_pws];
    rewrite lookup_insert_ne by done; (intros Hv9; by exists v).
  all: try match goal with |- context [<[?q := _]> (cl_links ?d)] =>
         cbn; (destruct (decide (q = p)) as [->|Hn];
           [rewrite lookup_insert, ?N.eqb_refl
           |rewrite lookup_insert_ne by done; intros Hv9; exists v; (split; [done|]); try (destruct (N.eqb_spec q p); [done|]); done]);
         match goal with E : cl_links d !! _ = Some ?u |- _ => intros [= <-]; by exists u end end.
  all: try match goal with |- context [drop_link ?d ?q] =>
    cbn [with_links with_stale with_kems with_tries cl_links cl_stale cl_kems cl_tries cl_pws];
    unfold drop_link; destruct (cl_links d !! q) as [u|] eqn:Eu; cbn; [|(intros Hv9; by exists v)];
    (destruct (decide (q = p)) as [<-|Hn]; [by rewrite lookup_delete|rewrite lookup_delete_ne by done; (intros Hv9; by exists v)]) end.
  all: intros Hv9; exists v; (split; [done|]); (destruct (N.eqb_spec zp p) as [->|]; [congruence|done]).
Qed.
Lemma versions_rekeys cid peers p es c tr :
  crun (client_init cid peers) es = Some (c, tr) → ∀ v, cl_links c !! p = Some v → vl_version v = rekeys p tr.
Proof.
  revert es c tr. apply (crun_inv (λ c tr, ∀ v, cl_links c !! p = Some v → vl_version v = rekeys p tr)); [done|].
  intros c tr e c' os IH He v Hv. unfold rekeys. rewrite foldl_app. cbn [foldl fst snd]. fold (rekeys p tr).
  destruct (event_cases _ _ _ _ p He) as [Hn|(t & this & i & k' & Hin & Hh)].
  - rewrite Hn. destruct (versions_event _ _ _ _ _ _ He Hn Hv) as (u & Hu & ->). specialize (IH _ Hu).
    destruct e; try exact IH. destruct (_ =? p); by rewrite IH.
  - rewrite Hh. apply (channel_inv _ _ _ _ _ _ _ _ _ He) in Hin as (_ & _ & Hl & _).
    rewrite Hl, lookup_insert in Hv. by injection Hv as <-.
Qed.
