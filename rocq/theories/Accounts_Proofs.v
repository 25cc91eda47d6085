From Coq Require Import ZifyBool ZifyNat ZifyN.
From stdpp Require Import prelude gmap.
From Verif Require Import Types_Model Accounts_Model Accounts_Spec.
Local Open Scope N_scope.

(** ** C48 *)
Lemma check_iff r u p f :
  check r u p f = true <->
  min_username r <= byte_len u <= max_username r /\ 32 ∉ u /\
  (forall pw, p = Some pw -> min_password r <= byte_len pw <= max_password r /\ 32 ∉ pw) /\
  min_name r <= byte_len f <= max_name r.
Proof.
  unfold check, contains_space.
  destruct ((byte_len u <? min_username r) || (max_username r <? byte_len u)) eqn:E1.
  { split; [done|]. intros (H & _). lia. }
  case_bool_decide as E2; [split; [done|tauto]|].
  destruct p as [pw|].
  - destruct ((byte_len pw <? min_password r) || (max_password r <? byte_len pw)) eqn:E3; cbn [orb].
    { split; [done|]. intros (_ & _ & H & _). specialize (H pw eq_refl). lia. }
    case_bool_decide as E4; [split; [done|]; intros (_ & _ & H & _); by destruct (H pw eq_refl)|].
    destruct ((byte_len f <? min_name r) || (max_name r <? byte_len f)) eqn:E5.
    { split; [done|]. intros (_ & _ & _ & H). lia. }
    split; [|done]. intros _. repeat split; try lia; try done; intros; simplify_eq; try lia; done.
  - destruct ((byte_len f <? min_name r) || (max_name r <? byte_len f)) eqn:E5.
    { split; [done|]. intros (_ & _ & _ & H). lia. }
    split; [|done]. intros _. repeat split; try lia; done.
Qed.

Lemma byte_len_ascii s : Forall (fun c => c < 128) s -> byte_len s = N.of_nat (length s).
Proof.
  induction 1 as [|c s Hc Hs IH]; cbn [byte_len foldr length]; [done|]. unfold byte_len in IH. rewrite IH.
  unfold utf8_width. destruct (c <? 128) eqn:E; lia.
Qed.

(** ** trim *)
Lemma drop_ws_head s : match drop_ws s with c :: _ => is_ws c = false | [] => True end.
Proof. induction s as [|c s IH]; cbn [drop_ws]; [done|]. destruct (is_ws c) eqn:E; done. Qed.
Lemma drop_ws_id s : match s with c :: _ => is_ws c = false | [] => True end -> drop_ws s = s.
Proof. destruct s as [|c s]; cbn; [done|]. by intros ->. Qed.
Lemma drop_ws_suffix s : exists p, s = p ++ drop_ws s.
Proof.
  induction s as [|c s [p IH]]; [by exists []|]. cbn [drop_ws]. destruct (is_ws c); [|by exists []].
  exists (c :: p). cbn. by rewrite <- IH.
Qed.

Lemma trim_idemp s : trim (trim s) = trim s.
Proof.
  unfold trim. set (x := drop_ws s). set (y := drop_ws (reverse x)).
  assert (drop_ws (reverse y) = reverse y) as H1.
  { apply drop_ws_id. pose proof (drop_ws_suffix (reverse x)) as [p Hp]. fold y in Hp.
    apply (f_equal reverse) in Hp. rewrite reverse_involutive, reverse_app in Hp.
    destruct (reverse y) as [|c r] eqn:E; [done|].
    pose proof (drop_ws_head s) as Hh. fold x in Hh. rewrite Hp in Hh. done. }
  rewrite H1, reverse_involutive.
  assert (drop_ws y = y) as H2 by apply drop_ws_id, drop_ws_head. by rewrite H2.
Qed.

Section Accounts.
Variable cid_of : rstring -> N.
Variable argon : argon_settings -> list N -> list N.
Notation register := (register cid_of argon).
Notation step := (step cid_of argon).
Notation run := (run cid_of argon).

(** ** C34, C35 *)
Lemma validate_enabled a u p f s k :
  a_auth a = Argon u f (ServerArgon s k) ->
  forall u' f' s', validate_credentials argon a (Enabled u' p f' s') = true <-> u' = u /\ argon s p = k.
Proof.
  intros Ha u' f' s'. unfold validate_credentials. rewrite Ha. cbn.
  case_bool_decide; cbn; [|split; [done|tauto]]. rewrite bool_decide_eq_true. tauto.
Qed.

Lemma registered_login_eq sha cfg d full user pw pw' secret salt1 salt2 dflt b :
  login_after_registration cid_of sha argon cfg d full user pw pw' secret salt1 salt2 dflt = Some b ->
  let cs := mk_as (trim full) salt1 secret DEFAULT_COST in
  let ss := mk_as (trim user) salt2 (as_secret (node_argon cfg)) (as_cost (node_argon cfg)) in
  b = bool_decide (argon ss (argon cs (sha pw')) = argon ss (argon cs (sha (trim pw)))).
Proof.
  unfold login_after_registration. destruct (register cfg d salt2 dflt _) as [d' r] eqn:E. unfold Accounts_Model.register in E.
  cbn [cred_username new_register derive_server_container auth_username auth_full_name] in E.
  destruct (cid_of (trim user) =? 0); [by simplify_eq|].
  destruct (negb (check _ _ _ _)); [by simplify_eq|].
  destruct (d !! cid_of (trim user)); [by simplify_eq|]. simplify_eq.
  rewrite lookup_insert. intros [= <-].
  cbn [new_register into_auth_store default from_option new_account generate_connect_credentials a_auth new_connect].
  unfold validate_credentials, new_connect. cbn [new_account a_auth cred_username auth_username creds_validate]. rewrite trim_idemp.
  rewrite bool_decide_eq_true_2 by done. done.
Qed.

(** ** C36 *)
Lemma register_spec cfg d salt dflt c d' r :
  register cfg d salt dflt c = (d', r) ->
  (r = None -> d' = d) /\
  (forall cid, r = Some cid -> cid = cid_of (cred_username c) /\ cid <> 0 /\ d !! cid = None /\
     exists a, d' = <[cid := a]> d /\ auth_username (a_auth a) = cred_username c /\ a_peers a = None /\ a_bytes a = ∅ /\
               check (reqs cfg) (cred_username c) None (auth_full_name (a_auth a)) = true).
Proof.
  unfold Accounts_Model.register. intros H.
  destruct (N.eqb_spec (cid_of (cred_username c)) 0); [simplify_eq; split; [done|intros; done]|].
  destruct (derive_server_container _ _ _ _) as [auth|] eqn:E; [|simplify_eq; split; [done|intros; done]].
  assert (auth_username auth = cred_username c) as Hu.
  { destruct c as [u p f s|u]; cbn in E; [by simplify_eq|]. destruct (allow_transient cfg); by simplify_eq. }
  rewrite Hu in H.
  destruct (check _ _ _ _) eqn:Ec; cbn [negb] in H; [|simplify_eq; split; [done|intros; done]].
  destruct (d !! cid_of (cred_username c)) eqn:Ed; simplify_eq; (split; [done|]); intros cid ?; simplify_eq.
  split; [done|]. split; [done|]. split; [done|]. eexists; split; [done|]. cbn. by rewrite Hu.
Qed.

Lemma register_argon cfg d salt dflt u p f s d' cid :
  register cfg d salt dflt (Enabled u p f s) = (d', Some cid) ->
  exists a, d' !! cid = Some a /\
    let ss := mk_as u salt (as_secret (node_argon cfg)) (as_cost (node_argon cfg)) in
    a_auth a = Argon u f (ServerArgon ss (argon ss p)).
Proof.
  unfold Accounts_Model.register. cbn [cred_username derive_server_container auth_username auth_full_name].
  destruct (_ =? 0); [by intros; simplify_eq|]. destruct (negb _); [by intros; simplify_eq|].
  destruct (d !! _); [by intros; simplify_eq|]. intros H; simplify_eq. eexists. rewrite lookup_insert. split; [done|]. done.
Qed.

Lemma remove_peer_auth c a : a_auth (remove_peer c a).1 = a_auth a /\ a_bytes (remove_peer c a).1 = a_bytes a.
Proof. unfold remove_peer. repeat case_match; done. Qed.

Definition same_shape (d d' : db) : Prop :=
  forall c, match d !! c, d' !! c with
            | Some a, Some a' => a_auth a = a_auth a' /\ a_bytes a = a_bytes a'
            | None, None => True
            | _, _ => False
            end.
Lemma same_shape_refl d : same_shape d d.
Proof. intros c. by destruct (d !! c). Qed.
Lemma same_shape_trans d1 d2 d3 : same_shape d1 d2 -> same_shape d2 d3 -> same_shape d1 d3.
Proof.
  intros H1 H2 c. specialize (H1 c). specialize (H2 c).
  destruct (d1 !! c), (d2 !! c), (d3 !! c); try done. destruct H1 as [-> ->], H2 as [-> ->]. done.
Qed.
Lemma same_shape_insert d c a a' :
  d !! c = Some a -> a_auth a' = a_auth a -> a_bytes a' = a_bytes a -> same_shape d (<[c := a']> d).
Proof.
  intros Hc H1 H2 x. destruct (decide (x = c)) as [->|].
  - rewrite lookup_insert, Hc. by split.
  - rewrite lookup_insert_ne by done. by destruct (d !! x).
Qed.

Lemma delete_loop_shape cid l d :
  same_shape d (foldl (fun d p => match d !! p with Some a => <[p := (remove_peer cid a).1]> d | None => d end) d l).
Proof.
  revert d; induction l as [|p l IH]; intros d; cbn [foldl]; [apply same_shape_refl|].
  eapply same_shape_trans; [|apply IH]. destruct (d !! p) as [a|] eqn:E; [|apply same_shape_refl].
  destruct (remove_peer_auth cid a). by eapply same_shape_insert.
Qed.

Lemma p2p_register_shape d a b d' ok : p2p_register d a b = Some (d', ok) -> same_shape d d'.
Proof.
  unfold p2p_register. destruct (d !! a) as [x|] eqn:Ea; [|intros [= <- <-]; apply same_shape_refl].
  destruct (d !! b) as [y|] eqn:Eb; [|intros [= <- <-]; apply same_shape_refl].
  destruct (N.eqb_spec a b); [done|]. intros [= <- <-].
  eapply same_shape_trans; [apply (same_shape_insert d a x (add_peer b x)); [exact Ea|reflexivity|reflexivity]|].
  eapply (same_shape_insert _ b y); [|done|done]. by rewrite lookup_insert_ne.
Qed.

Lemma p2p_deregister_shape d a b d' ok : p2p_deregister d a b = (d', ok) -> same_shape d d'.
Proof.
  unfold p2p_deregister. destruct (d !! a) as [x|] eqn:Ea; [|intros [= <- <-]; apply same_shape_refl].
  destruct (d !! b) as [y|] eqn:Eb; [|intros [= <- <-]; apply same_shape_refl].
  destruct (remove_peer b x) as [x' []] eqn:Ex; [|intros [= <- <-]; apply same_shape_refl].
  pose proof (remove_peer_auth b x) as [Hx1 Hx2]. rewrite Ex in *. cbn in *.
  assert (same_shape d (<[a:=x']> d)) as Hs by by eapply same_shape_insert.
  destruct (<[a:=x']> d !! b) as [y'|] eqn:Ey; [|intros [= <- <-]; done].
  destruct (remove_peer a y') as [y'' ok'] eqn:Ey2. intros [= <- <-].
  pose proof (remove_peer_auth a y') as [Hy1 Hy2]. rewrite Ey2 in *. cbn in *.
  eapply same_shape_trans; [done|]. by eapply same_shape_insert.
Qed.

Definition keyed (d : db) : Prop := forall c a, d !! c = Some a -> c = 0 \/ c = cid_of (auth_username (a_auth a)).

Lemma same_shape_keyed d d' : same_shape d d' -> keyed d -> keyed d'.
Proof.
  intros Hs Hk c a Hc. specialize (Hs c). rewrite Hc in Hs. destruct (d !! c) as [a0|] eqn:E; [|done].
  destruct Hs as [<- _]. by apply Hk.
Qed.

Definition byte_only (d d' : db) : Prop :=
  forall c, match d !! c, d' !! c with
            | Some a, Some a' => a_auth a = a_auth a' /\ a_peers a = a_peers a'
            | None, None => True
            | _, _ => False
            end.
Lemma byte_only_refl d : byte_only d d.
Proof. intros c. by destruct (d !! c). Qed.
Lemma byte_only_insert d c a a' : d !! c = Some a -> a_auth a' = a_auth a -> a_peers a' = a_peers a -> byte_only d (<[c := a']> d).
Proof.
  intros Hc H1 H2 x. destruct (decide (x = c)) as [->|].
  - rewrite lookup_insert, Hc. by split.
  - rewrite lookup_insert_ne by done. by destruct (d !! x).
Qed.
Lemma byte_only_keyed d d' : byte_only d d' -> keyed d -> keyed d'.
Proof.
  intros Hs Hk c a Hc. specialize (Hs c). rewrite Hc in Hs. destruct (d !! c) as [a0|] eqn:E; [|done].
  destruct Hs as [<- _]. by apply Hk.
Qed.

Definition is_byte_op (o : op) : bool :=
  match o with OByteGet _ _ _ _ | OByteRemove _ _ _ _ | OByteStore _ _ _ _ _ | OByteGetKey _ _ _ | OByteRemoveKey _ _ _ => true | _ => false end.

Lemma byte_op_only cfg d o : is_byte_op o = true -> byte_only d (step cfg d o).1.
Proof.
  destruct o as [?| | | |c p k x|c p k x|c p k x v|c p k|c p k]; cbn [is_byte_op Accounts_Model.step]; intros H; try done;
  unfold byte_get, byte_remove, byte_store, byte_get_key, byte_remove_key;
  destruct (d !! c) as [a|] eqn:E; cbn [fst]; try apply byte_only_refl; by eapply byte_only_insert.
Qed.

Lemma step_dom cfg d o d' r : step cfg d o = (d', r) ->
  forall c, is_Some (d !! c) -> is_Some (d' !! c) \/ (o = ODelete c /\ r = ROk true).
Proof.
  intros H c Hc. destruct (is_byte_op o) eqn:Eb.
  { left. pose proof (byte_op_only cfg d o Eb c) as Hb. rewrite H in Hb. cbn in Hb.
    destruct (d !! c), (d' !! c); try done; by destruct Hc. }
  assert (same_shape d d' -> is_Some (d' !! c)) as Hss.
  { intros Hs. specialize (Hs c). destruct (d !! c), (d' !! c); try done; by destruct Hc. }
  destruct o as [salt dflt cr|x|a b|a b| | | | |]; cbn [is_byte_op Accounts_Model.step] in *; try done.
  - destruct (register cfg d salt dflt cr) as [d1 r1] eqn:E. simplify_eq. destruct (register_spec _ _ _ _ _ _ _ E) as [H1 H2].
    destruct r1 as [cid|]; [|rewrite H1 by done; by left].
    destruct (H2 cid eq_refl) as (_ & _ & _ & a & -> & _). left. destruct (decide (c = cid)) as [->|].
    + by rewrite lookup_insert.
    + by rewrite lookup_insert_ne.
  - unfold Accounts_Model.delete in H. destruct (d !! x) as [cl|] eqn:E; simplify_eq; [|by left].
    destruct (decide (c = x)) as [->|Hne]; [by right|left].
    pose proof (delete_loop_shape x (default [] (a_peers cl)) (base.delete x d) c) as Hs. rewrite lookup_delete_ne in Hs by done.
    destruct (d !! c); [|by destruct Hc]. destruct (foldl _ _ _ !! c); [done|done].
  - destruct (p2p_register d a b) as [[d1 ok]|] eqn:E; simplify_eq; [|by left]. left. by eapply Hss, p2p_register_shape.
  - destruct (p2p_deregister d a b) as [d1 ok] eqn:E; simplify_eq. left. by eapply Hss, p2p_deregister_shape.
Qed.

Lemma step_keyed cfg d o : keyed d -> keyed (step cfg d o).1.
Proof.
  intros Hk. destruct (is_byte_op o) eqn:Eb. { eapply byte_only_keyed; [by apply byte_op_only|done]. }
  destruct o as [salt dflt cr|x|a b|a b| | | | |]; cbn [is_byte_op Accounts_Model.step] in *; try done.
  - destruct (register cfg d salt dflt cr) as [d1 r1] eqn:E. cbn. destruct (register_spec _ _ _ _ _ _ _ E) as [H1 H2].
    destruct r1 as [cid|]; [|by rewrite H1]. destruct (H2 cid eq_refl) as (-> & _ & _ & a & -> & Ha & _).
    intros c a' Hc. destruct (decide (c = cid_of (cred_username cr))) as [->|].
    + rewrite lookup_insert in Hc. simplify_eq. right. by rewrite Ha.
    + rewrite lookup_insert_ne in Hc by done. by apply Hk.
  - unfold Accounts_Model.delete. destruct (d !! x) as [cl|] eqn:E; cbn [fst]; [|done].
    eapply same_shape_keyed; [apply delete_loop_shape|]. intros c a Hc. apply lookup_delete_Some in Hc as [_ Hc]. by apply Hk.
  - destruct (p2p_register d a b) as [[d1 ok]|] eqn:E; cbn [fst]; [|done]. by eapply same_shape_keyed, Hk; eapply p2p_register_shape.
  - destruct (p2p_deregister d a b) as [d1 ok] eqn:E; cbn [fst]. by eapply same_shape_keyed, Hk; eapply p2p_deregister_shape.
Qed.

Lemma run_keyed cfg ops : forall d, keyed d -> keyed (run cfg d ops).1.
Proof.
  induction ops as [|o ops IH]; intros d Hk; cbn [Accounts_Model.run]; [done|].
  destruct (step cfg d o) as [d' r] eqn:E. destruct (run cfg d' ops) as [d'' rs] eqn:E2. cbn.
  pose proof (step_keyed cfg d o Hk) as H. rewrite E in H. specialize (IH d' H). by rewrite E2 in IH.
Qed.

Lemma keyed_init : keyed db_init.
Proof. intros c a Hc. unfold db_init in Hc. apply lookup_singleton_Some in Hc as [<- _]. by left. Qed.

Lemma run_length cfg ops : forall d, length (run cfg d ops).2 = length ops.
Proof.
  induction ops as [|o ops IH]; intros d; cbn [Accounts_Model.run]; [done|].
  destruct (step cfg d o) as [d' r]. specialize (IH d'). destruct (run cfg d' ops). cbn in *. by rewrite IH.
Qed.

(** An existing account cannot be registered again before it is deleted. *)
Lemma existing_until_deleted cfg ops : forall d c j,
  is_Some (d !! c) ->
  (run cfg d ops).2 !! j = Some (RCid (Some c)) ->
  exists k, (k < j)%nat /\ ops !! k = Some (ODelete c) /\ (run cfg d ops).2 !! k = Some (ROk true).
Proof.
  induction ops as [|o ops IH]; intros d c j Hd Hj; cbn [Accounts_Model.run] in *; [done|].
  destruct (step cfg d o) as [d' r] eqn:E. destruct (run cfg d' ops) as [d'' rs] eqn:E2. cbn [snd] in *.
  destruct j as [|j]; cbn in Hj.
  - exfalso. simplify_eq. destruct o as [salt dflt cr|x|a b|a b|? ? ? ?|? ? ? ?|? ? ? ? ?|? ? ?|? ? ?]; cbn [Accounts_Model.step] in E;
    try (repeat case_match; simplify_eq; done).
    destruct (register cfg d salt dflt cr) as [d1 r1] eqn:Er. simplify_eq. destruct (register_spec _ _ _ _ _ _ _ Er) as [_ H2].
    destruct (H2 c eq_refl) as (_ & _ & Hn & _). rewrite Hn in Hd. by destruct Hd.
  - destruct (step_dom _ _ _ _ _ E c Hd) as [Hd'|[-> ->]].
    + destruct (IH d' c j Hd') as (k & Hk & Ho & Hr). { by rewrite E2. } rewrite E2 in Hr. exists (S k). split; [lia|]. done.
    + exists 0%nat. split; [lia|]. done.
Qed.

Lemma registered_exists cfg ops : forall d c i,
  (run cfg d ops).2 !! i = Some (RCid (Some c)) ->
  forall j, (i < j)%nat -> (run cfg d ops).2 !! j = Some (RCid (Some c)) ->
  exists k, (i < k < j)%nat /\ ops !! k = Some (ODelete c) /\ (run cfg d ops).2 !! k = Some (ROk true).
Proof.
  induction ops as [|o ops IH]; intros d c i Hi j Hij Hj; cbn [Accounts_Model.run] in *; [done|].
  destruct (step cfg d o) as [d' r] eqn:E. destruct (run cfg d' ops) as [d'' rs] eqn:E2. cbn [snd] in *.
  destruct j as [|j]; [lia|]. destruct i as [|i]; cbn in Hi, Hj.
  - simplify_eq. assert (is_Some (d' !! c)) as Hd'.
    { destruct o as [salt dflt cr|x|a b|a b|? ? ? ?|? ? ? ?|? ? ? ? ?|? ? ?|? ? ?]; cbn [Accounts_Model.step] in E;
      try (repeat case_match; simplify_eq; done).
      destruct (register cfg d salt dflt cr) as [d1 r1] eqn:Er. simplify_eq. destruct (register_spec _ _ _ _ _ _ _ Er) as [_ H2].
      destruct (H2 c eq_refl) as (_ & _ & Hn & a & -> & _). by rewrite lookup_insert. }
    destruct (existing_until_deleted cfg ops d' c j Hd') as (k & Hk & Ho & Hr). { by rewrite E2. }
    rewrite E2 in Hr. exists (S k). split; [lia|]. done.
  - destruct (IH d' c i) with (j := j) as (k & Hk & Ho & Hr); try (by rewrite E2); [lia|].
    rewrite E2 in Hr. exists (S k). split; [lia|]. done.
Qed.

Lemma run_register_cid cfg ops : forall d i salt dflt cr c,
  ops !! i = Some (ORegister salt dflt cr) -> (run cfg d ops).2 !! i = Some (RCid (Some c)) -> c = cid_of (cred_username cr).
Proof.
  induction ops as [|o ops IH]; intros d i salt dflt cr c Ho Hr; [done|]. cbn [Accounts_Model.run] in Hr.
  destruct (step cfg d o) as [d' r] eqn:E. destruct (run cfg d' ops) as [d'' rs] eqn:E2. cbn [snd] in Hr.
  destruct i as [|i]; cbn in Ho, Hr.
  - simplify_eq. cbn [Accounts_Model.step] in E. destruct (register cfg d salt dflt cr) as [d1 r1] eqn:Er. simplify_eq.
    destruct (register_spec _ _ _ _ _ _ _ Er) as [_ H2]. by destruct (H2 c eq_refl) as (-> & _).
  - apply (IH d' i salt dflt); [done|]. by rewrite E2.
Qed.

(** ** C37 *)
Definition occ (b : N) (l : list N) : nat := length (filter (fun x => x = b) l).
Definition cnt (d : db) (a b : N) : nat :=
  match d !! a with Some x => occ b (default [] (a_peers x)) | None => O end.

Lemma occ_app b l1 l2 : occ b (l1 ++ l2) = (occ b l1 + occ b l2)%nat.
Proof. unfold occ. by rewrite filter_app, app_length. Qed.
Lemma occ_cons b x l : occ b (x :: l) = ((if decide (x = b) then 1 else 0) + occ b l)%nat.
Proof. unfold occ. rewrite filter_cons. by destruct (decide (x = b)). Qed.
Lemma occ_pos b l : (0 < occ b l)%nat <-> b ∈ l.
Proof.
  induction l as [|x l IH]; [unfold occ; cbn; split; [lia|]; intros H; by apply not_elem_of_nil in H|].
  rewrite occ_cons, elem_of_cons, <- IH. destruct (decide (x = b)) as [->|]; [split; [by left|lia]|]. split; [lia|]. intros [->|]; [done|lia].
Qed.

Lemma NoDup_occ b l : NoDup l -> (occ b l <= 1)%nat.
Proof.
  induction 1 as [|x l Hx _ IH]; [unfold occ; cbn; lia|]. rewrite occ_cons. destruct (decide (x = b)) as [->|]; [|lia].
  assert (~ (0 < occ b l)%nat) by by rewrite occ_pos. lia.
Qed.

Lemma remove_first_occ c l : 
  match remove_first c l with
  | Some l' => forall b, occ b l = (occ b l' + if decide (c = b) then 1 else 0)%nat
  | None => occ c l = 0%nat
  end.
Proof.
  induction l as [|x l IH]; [done|]. cbn [remove_first]. destruct (N.eqb_spec x c) as [->|Hne].
  - intros b. rewrite occ_cons. lia.
  - destruct (remove_first c l) as [l'|].
    + intros b. rewrite !occ_cons, IH. lia.
    + rewrite occ_cons, IH. destruct (decide (x = c)); [done|lia].
Qed.

Lemma remove_peer_occ c a :
  let '(a', ok) := remove_peer c a in
  (forall b, b <> c -> occ b (default [] (a_peers a')) = occ b (default [] (a_peers a))) /\
  occ c (default [] (a_peers a')) = (occ c (default [] (a_peers a)) - 1)%nat /\
  (ok = true <-> (0 < occ c (default [] (a_peers a)))%nat) /\ (ok = false -> a' = a).
Proof.
  unfold remove_peer. destruct (a_peers a) as [l|] eqn:E; [|rewrite E; cbn; repeat split; try done; lia].
  pose proof (remove_first_occ c l) as H. destruct (remove_first c l) as [l'|]; cbn [a_peers from_option id].
  - split; [|split; [|split; [|done]]].
    + intros b Hb. specialize (H b). destruct (decide (c = b)); [done|lia].
    + specialize (H c). destruct (decide (c = c)); [lia|done].
    + specialize (H c). destruct (decide (c = c)); [|done]. split; [lia|done].
  - rewrite E. cbn [a_peers from_option id]. repeat split; try done; lia.
Qed.

Lemma add_peer_occ c a q : occ q (default [] (a_peers (add_peer c a))) = (occ q (default [] (a_peers a)) + if decide (c = q) then 1 else 0)%nat.
Proof.
  unfold add_peer. cbn [a_peers from_option id]. rewrite occ_app, occ_cons. unfold occ at 2. cbn [filter list_filter length]. lia.
Qed.

Record sym (d : db) : Prop := {
  sym_cnt : forall a b, cnt d a b = cnt d b a;
  sym_self : forall a, cnt d a a = 0%nat }.

Lemma cnt_insert d c a x y : cnt (<[c := a]> d) x y = if decide (x = c) then occ y (default [] (a_peers a)) else cnt d x y.
Proof.
  unfold cnt. destruct (decide (x = c)) as [->|]; [by rewrite lookup_insert|by rewrite lookup_insert_ne].
Qed.

Lemma delete_loop_cnt cid l : forall d x y,
  cnt (foldl (fun d p => match d !! p with Some a => <[p := (remove_peer cid a).1]> d | None => d end) d l) x y =
  (cnt d x y - if decide (y = cid) then occ x l else 0)%nat.
Proof.
  induction l as [|p l IH]; intros d x y; cbn [foldl].
  - unfold occ. cbn. destruct (decide (y = cid)); lia.
  - rewrite IH. rewrite occ_cons. destruct (d !! p) as [a|] eqn:E.
    + rewrite cnt_insert. pose proof (remove_peer_occ cid a) as Hr. destruct (remove_peer cid a) as [a' ok]. cbn [fst].
      destruct Hr as (H1 & H2 & _). unfold cnt.
      destruct (decide (x = p)) as [->|Hxp].
      * rewrite E. destruct (decide (y = cid)) as [->|Hy].
        -- rewrite H2. destruct (decide (p = p)); [lia|done].
        -- rewrite H1 by done. lia.
      * destruct (decide (p = x)); [congruence|]. destruct (decide (y = cid)); lia.
    + destruct (decide (p = x)) as [->|]; [|destruct (decide (y = cid)); lia].
      unfold cnt. rewrite E. destruct (decide (y = cid)); lia.
Qed.

Lemma byte_only_cnt d d' : byte_only d d' -> forall a b, cnt d' a b = cnt d a b.
Proof. intros H a b. specialize (H a). unfold cnt. destruct (d !! a), (d' !! a); try done. by destruct H as [_ ->]. Qed.

Lemma cnt_ext_sym d d' : (forall a b, cnt d' a b = cnt d a b) -> sym d -> sym d'.
Proof. intros H [H1 H2]. split; intros; rewrite !H; auto. Qed.

Lemma step_sym cfg d o : sym d -> sym (step cfg d o).1.
Proof.
  intros Hs. destruct (is_byte_op o) eqn:Eb. { eapply cnt_ext_sym; [|done]. by apply byte_only_cnt, byte_op_only. }
  destruct Hs as [Hs Hself].
  destruct o as [salt dflt cr|x|a b|a b| | | | |]; cbn [is_byte_op Accounts_Model.step] in *; try done.
  - destruct (register cfg d salt dflt cr) as [d1 r1] eqn:E. cbn. destruct (register_spec _ _ _ _ _ _ _ E) as [H1 H2].
    destruct r1 as [cid|]; [|by rewrite H1]. destruct (H2 cid eq_refl) as (_ & _ & Hn & a & -> & Ha & Hp & _).
    eapply (cnt_ext_sym d); [|by split]. intros x y. rewrite cnt_insert. destruct (decide (x = cid)) as [->|]; [|done].
    unfold cnt. rewrite Hp, Hn. done.
  - unfold Accounts_Model.delete. destruct (d !! x) as [cl|] eqn:E; cbn [fst]; [|by split].
    assert (forall a b, cnt (base.delete x d) a b = if decide (a = x) then 0%nat else cnt d a b) as Hd.
    { intros a b. unfold cnt. destruct (decide (a = x)) as [->|]; [by rewrite lookup_delete|by rewrite lookup_delete_ne]. }
    assert (forall q, occ q (default [] (a_peers cl)) = cnt d x q) as Hl. { intros q. unfold cnt. by rewrite E. }
    split; intros; rewrite !delete_loop_cnt, !Hd, ?Hl.
    + destruct (decide (a = x)), (decide (b = x)); subst; rewrite ?Hself; try lia.
      * rewrite (Hs b x). lia.
      * rewrite (Hs a x). lia.
      * by rewrite (Hs a b).
    + rewrite Hself. destruct (decide (a = x)); lia.
  - destruct (p2p_register d a b) as [[d1 ok]|] eqn:E; cbn [fst]; [|by split].
    unfold p2p_register in E. destruct (d !! a) as [x|] eqn:Ea; [|simplify_eq; by split].
    destruct (d !! b) as [y|] eqn:Eb'; [|simplify_eq; by split]. destruct (N.eqb_spec a b) as [|Hab]; [done|]. simplify_eq.
    assert (forall p q, cnt (<[b:=add_peer a y]> (<[a:=add_peer b x]> d)) p q =
       (cnt d p q + (if decide (p = a /\ q = b \/ p = b /\ q = a) then 1 else 0))%nat) as Hc.
    { intros p q. rewrite !cnt_insert. rewrite !add_peer_occ.
      unfold cnt. destruct (decide (p = b)) as [->|]; [rewrite Eb'|destruct (decide (p = a)) as [->|]; [rewrite Ea|]].
      - destruct (decide (a = q)), (decide _) as [?|Hn]; try lia; exfalso; naive_solver.
      - destruct (decide (b = q)), (decide _) as [?|Hn]; try lia; exfalso; naive_solver.
      - destruct (decide _); [naive_solver|lia]. }
    split; intros; rewrite !Hc.
    + rewrite (Hs a0). destruct (decide _), (decide _); try lia; naive_solver.
    + rewrite Hself. destruct (decide _); naive_solver.
  - destruct (p2p_deregister d a b) as [d1 ok] eqn:E; cbn [fst].
    unfold p2p_deregister in E. destruct (d !! a) as [x|] eqn:Ea; [|simplify_eq; by split].
    destruct (d !! b) as [y|] eqn:Eb'; [|simplify_eq; by split].
    pose proof (remove_peer_occ b x) as Hx. destruct (remove_peer b x) as [x' [|]]; [|simplify_eq; by split].
    destruct Hx as (Hx1 & Hx2 & Hx3 & _).
    assert (cnt d a b > 0)%nat as Hpos. { unfold cnt. rewrite Ea. by apply Hx3. }
    assert (a <> b) as Hab. { intros ->. rewrite Hself in Hpos. lia. }
    rewrite lookup_insert_ne in E by done. rewrite Eb' in E. pose proof (remove_peer_occ a y) as Hy.
    destruct (remove_peer a y) as [y' ok']. destruct Hy as (Hy1 & Hy2 & _). simplify_eq.
    assert (forall p q, cnt (<[b:=y']> (<[a:=x']> d)) p q =
       (cnt d p q - (if decide (p = a /\ q = b \/ p = b /\ q = a) then 1 else 0))%nat) as Hc.
    { intros p q. rewrite !cnt_insert. unfold cnt. destruct (decide (p = b)) as [->|]; [rewrite Eb'|destruct (decide (p = a)) as [->|]; [rewrite Ea|]].
      - destruct (decide _) as [Hd|Hd]; [assert (q = a) as -> by naive_solver; by rewrite Hy2|rewrite Hy1 by naive_solver; lia].
      - destruct (decide _) as [Hd|Hd]; [assert (q = b) as -> by naive_solver; by rewrite Hx2|rewrite Hx1 by naive_solver; lia].
      - destruct (decide _); [naive_solver|lia]. }
    split; intros; rewrite !Hc.
    + rewrite (Hs a0). destruct (decide _), (decide _); try lia; naive_solver.
    + rewrite Hself. destruct (decide _); naive_solver.
Qed.

Lemma run_sym cfg ops : forall d, sym d -> sym (run cfg d ops).1.
Proof.
  induction ops as [|o ops IH]; intros d Hk; cbn [Accounts_Model.run]; [done|].
  destruct (step cfg d o) as [d' r] eqn:E. destruct (run cfg d' ops) as [d'' rs] eqn:E2. cbn.
  pose proof (step_sym cfg d o Hk) as H. rewrite E in H. specialize (IH d' H). by rewrite E2 in IH.
Qed.

Lemma sym_init : sym db_init.
Proof.
  assert (forall a b, cnt db_init a b = 0%nat) as H; [|split; intros; by rewrite !H].
  intros a b. unfold cnt, db_init. destruct (decide (a = 0)) as [->|]; [by rewrite lookup_singleton|by rewrite lookup_singleton_ne].
Qed.

Lemma lists_cnt d a b : lists d a b <-> (0 < cnt d a b)%nat.
Proof.
  unfold lists, peer_list, cnt. destruct (d !! a) as [x|]; [|split; [by intros (?&?&?)|lia]].
  rewrite occ_pos. destruct (a_peers x) as [l|]; cbn.
  - split; [intros (?&?&?); by simplify_eq|eauto].
  - split; [by intros (?&?&?)|]. intros H. by apply not_elem_of_nil in H.
Qed.

Lemma deregister_cnt cfg d a b d' ok :
  sym d -> step cfg d (OP2pDeregister a b) = (d', ROk ok) ->
  (ok = true <-> lists d a b) /\ (ok = false -> d' = d) /\
  (ok = true -> cnt d' a b = (cnt d a b - 1)%nat /\ cnt d' b a = (cnt d b a - 1)%nat).
Proof.
  intros [Hs Hself] H. cbn [Accounts_Model.step] in H. destruct (p2p_deregister d a b) as [d1 ok1] eqn:E. simplify_eq.
  rewrite lists_cnt. unfold p2p_deregister in E.
  destruct (d !! a) as [x|] eqn:Ea; [|simplify_eq; unfold cnt; rewrite Ea; split; [split; [done|lia]|done]].
  destruct (d !! b) as [y|] eqn:Eb'.
  2:{ simplify_eq. rewrite Hs. unfold cnt; rewrite Eb'; split; [split; [done|lia]|done]. }
  pose proof (remove_peer_occ b x) as Hx. destruct (remove_peer b x) as [x' okx].
  destruct Hx as (Hx1 & Hx2 & Hx3 & Hx4).
  assert (okx = true <-> (0 < cnt d a b)%nat) as Hok. { unfold cnt. by rewrite Ea. }
  destruct okx.
  2:{ simplify_eq. split; [rewrite <- Hok; done|done]. }
  assert (cnt d a b > 0)%nat as Hpos by by apply Hok.
  assert (a <> b) as Hab. { intros ->. rewrite Hself in Hpos. lia. }
  rewrite lookup_insert_ne in E by done. rewrite Eb' in E. pose proof (remove_peer_occ a y) as Hy.
  destruct (remove_peer a y) as [y' ok']. destruct Hy as (Hy1 & Hy2 & Hy3 & _). simplify_eq.
  assert (ok = true) as -> by (apply Hy3; rewrite (Hs a b) in Hpos; unfold cnt in Hpos; by rewrite Eb' in Hpos).
  split; [split; [done|done]|]. split; [done|]. intros _. split.
  - rewrite !cnt_insert. destruct (decide (a = b)); [done|]. destruct (decide (a = a)); [|done]. rewrite Hx2. unfold cnt. by rewrite Ea.
  - rewrite cnt_insert. destruct (decide (b = b)); [|done]. rewrite Hy2. unfold cnt. by rewrite Eb'.
Qed.

(** ** C38 *)
Definition flat (d : db) (c p : N) (k x : rstring) : option bytes :=
  match d !! c with Some a => sub_map a p k !! x | None => None end.

Definition refines (d : db) (s : storage) : Prop :=
  (forall c, c ∈ st_accounts s <-> is_Some (d !! c)) /\
  (forall c p k x, st_map s !! (c, p, k, x) = flat d c p k x).

Lemma sub_map_put a p k m p' k' :
  sub_map (put_sub_map a p k m) p' k' = if decide (p' = p /\ k' = k) then m else sub_map a p' k'.
Proof.
  unfold sub_map, put_sub_map. cbn [a_bytes]. destruct (decide (p' = p)) as [->|Hp].
  - rewrite lookup_insert. cbn [from_option id]. destruct (decide (k' = k)) as [->|Hk].
    + rewrite lookup_insert. cbn. destruct (decide _); [done|tauto].
    + rewrite lookup_insert_ne by done. destruct (decide _); [tauto|done].
  - rewrite lookup_insert_ne by done. destruct (decide _); [tauto|done].
Qed.

Lemma flat_put d c a p k m :
  d !! c = Some a -> forall c' p' k' x',
  flat (<[c := put_sub_map a p k m]> d) c' p' k' x' =
  if decide (c' = c /\ p' = p /\ k' = k) then m !! x' else flat d c' p' k' x'.
Proof.
  intros Hc c' p' k' x'. unfold flat. destruct (decide (c' = c)) as [->|].
  - rewrite lookup_insert, sub_map_put, Hc. destruct (decide (p' = p /\ k' = k)), (decide _); try done; naive_solver.
  - rewrite lookup_insert_ne by done. destruct (decide _); [naive_solver|done].
Qed.

Lemma insert_dom (d : db) c a a' : d !! c = Some a -> forall x, is_Some (<[c := a']> d !! x) <-> is_Some (d !! x).
Proof. intros Hc x. destruct (decide (x = c)) as [->|]; [rewrite lookup_insert, Hc; split; eauto|by rewrite lookup_insert_ne]. Qed.

Lemma same_shape_flat d d' : same_shape d d' ->
  (forall c, is_Some (d' !! c) <-> is_Some (d !! c)) /\ forall c p k x, flat d' c p k x = flat d c p k x.
Proof.
  intros H. split.
  - intros c. specialize (H c). destruct (d !! c), (d' !! c); try done; split; eauto.
  - intros c p k x. specialize (H c). unfold flat, sub_map. destruct (d !! c), (d' !! c); try done. by destruct H as [_ ->].
Qed.

Lemma refine_ext d d' s : (forall c, is_Some (d' !! c) <-> is_Some (d !! c)) -> (forall c p k x, flat d' c p k x = flat d c p k x) ->
  refines d s -> refines d' s.
Proof. intros H1 H2 [H3 H4]. split; intros; [by rewrite H1|by rewrite H2]. Qed.

Lemma step_refines cfg d s o d' r :
  refines d s -> step cfg d o = (d', r) -> storage_answer s o r /\ refines d' (storage_next s o r).
Proof.
  intros [Hacc Hmap] H.
  assert (refines d s) as Href by by split.
  destruct o as [salt dflt cr|y|a b|a b|c p k x|c p k x|c p k x v|c p k|c p k]; cbn [Accounts_Model.step storage_answer] in *.
  - split; [done|]. destruct (register cfg d salt dflt cr) as [d1 r1] eqn:E. simplify_eq. destruct (register_spec _ _ _ _ _ _ _ E) as [H1 H2].
    cbn. destruct r1 as [cid|]; [|by rewrite H1]. destruct (H2 cid eq_refl) as (_ & _ & Hn & a & -> & Ha & _ & Hb & _).
    split; cbn.
    + intros c. rewrite elem_of_union, elem_of_singleton, Hacc. destruct (decide (c = cid)) as [->|].
      * rewrite lookup_insert. split; [eauto|by left].
      * rewrite lookup_insert_ne by done. naive_solver.
    + intros c p k x. rewrite Hmap. unfold flat. destruct (decide (c = cid)) as [->|].
      * rewrite lookup_insert, Hn. unfold sub_map. by rewrite Hb, lookup_empty.
      * by rewrite lookup_insert_ne.
  - split; [done|]. unfold Accounts_Model.delete in H. destruct (d !! y) as [cl|] eqn:E; simplify_eq; cbn; [|done].
    pose proof (delete_loop_shape y (default [] (a_peers cl)) (base.delete y d)) as Hs. apply same_shape_flat in Hs as [Hs1 Hs2].
    eapply refine_ext; [done|done|]. split; cbn.
    + intros c. rewrite elem_of_difference, elem_of_singleton, Hacc, lookup_delete_is_Some. naive_solver.
    + intros c p k x. unfold flat. destruct (decide (c = y)) as [->|Hne].
      * rewrite lookup_delete. apply map_filter_lookup_None_2. right. intros ? _ Hf. by apply Hf.
      * rewrite lookup_delete_ne by done. rewrite map_filter_lookup. rewrite Hmap. unfold flat.
        destruct (d !! c) as [a|]; [|done]. destruct (sub_map a p k !! x); [|done]. cbn. by rewrite option_guard_True.
  - split; [done|]. destruct (p2p_register d a b) as [[d1 ok]|] eqn:E; simplify_eq; cbn; [|done].
    destruct (same_shape_flat _ _ (p2p_register_shape _ _ _ _ _ E)). by eapply refine_ext.
  - split; [done|]. destruct (p2p_deregister d a b) as [d1 ok] eqn:E; simplify_eq; cbn.
    destruct (same_shape_flat _ _ (p2p_deregister_shape _ _ _ _ _ E)). by eapply refine_ext.
  - unfold byte_get in H. rewrite Hmap. unfold flat. destruct (d !! c) as [a|] eqn:E; simplify_eq; (split; [done|]); cbn; [|done].
    eapply refine_ext; [by eapply insert_dom| |done]. intros c' p' k' x'. rewrite flat_put by done.
    destruct (decide _) as [(->&->&->)|]; [|done]. unfold flat. by rewrite E.
  - unfold byte_remove in H. rewrite Hmap. unfold flat at 1. destruct (d !! c) as [a|] eqn:E; simplify_eq; (split; [done|]); cbn.
    + split; cbn; [intros y; by rewrite (insert_dom _ _ a)|]. intros c' p' k' x'. rewrite flat_put by done.
      destruct (decide (c' = c /\ p' = p /\ k' = k)) as [(->&->&->)|Hne].
      * destruct (decide (x' = x)) as [->|]; [by rewrite !lookup_delete|].
        rewrite !lookup_delete_ne by congruence. rewrite Hmap. unfold flat. by rewrite E.
      * rewrite lookup_delete_ne by naive_solver. apply Hmap.
    + split; cbn; [done|]. intros c' p' k' x'. destruct (decide ((c,p,k,x) = (c',p',k',x'))) as [[= <- <- <- <-]|].
      * rewrite lookup_delete. unfold flat. by rewrite E.
      * by rewrite lookup_delete_ne.
  - unfold byte_store in H. rewrite Hmap. unfold flat at 1. destruct (d !! c) as [a|] eqn:E; simplify_eq; (split; [done|]); cbn.
    + destruct (decide _) as [_|Hn]; [|exfalso; apply Hn, Hacc; eauto].
      split; cbn; [intros y; by rewrite (insert_dom _ _ a)|]. intros c' p' k' x'. rewrite flat_put by done.
      destruct (decide (c' = c /\ p' = p /\ k' = k)) as [(->&->&->)|Hne].
      * destruct (decide (x' = x)) as [->|]; [by rewrite !lookup_insert|].
        rewrite !lookup_insert_ne by congruence. rewrite Hmap. unfold flat. by rewrite E.
      * rewrite lookup_insert_ne by naive_solver. apply Hmap.
    + destruct (decide _) as [Hi|_]; [|done]. apply Hacc in Hi as [? ?]. congruence.
  - unfold byte_get_key in H. destruct (d !! c) as [a|] eqn:E; simplify_eq; cbn.
    + split; [eexists; split; [done|]; intros x; rewrite Hmap; unfold flat; by rewrite E|].
      eapply refine_ext; [by eapply insert_dom| |done]. intros c' p' k' x'. rewrite flat_put by done.
      destruct (decide _) as [(->&->&->)|]; [|done]. unfold flat. by rewrite E.
    + split; [|done]. eexists; split; [done|]. intros x. rewrite Hmap. unfold flat. by rewrite E.
  - unfold byte_remove_key in H. destruct (d !! c) as [a|] eqn:E; injection H as <- <-; cbn.
    + split; [eexists; split; [done|]; intros x; rewrite Hmap; unfold flat; by rewrite E|].
      split; cbn; [intros y; by rewrite (insert_dom _ _ a)|]. intros c' p' k' x'.
      rewrite map_filter_lookup, Hmap. unfold flat. destruct (decide (c' = c)) as [->|Hc].
      * rewrite lookup_insert, E. unfold sub_map. cbn [a_bytes]. destruct (decide (p' = p)) as [->|Hp].
        -- rewrite lookup_insert. cbn [from_option id]. destruct (decide (k' = k)) as [->|Hk].
           ++ rewrite lookup_delete. cbn. destruct (_ !! x'); [|done]. cbn. by rewrite option_guard_False by naive_solver.
           ++ rewrite lookup_delete_ne by done. destruct (_ !! x'); [|done]. cbn. by rewrite option_guard_True by naive_solver.
        -- rewrite lookup_insert_ne by done. destruct (_ !! x'); [|done]. cbn. by rewrite option_guard_True by naive_solver.
      * rewrite lookup_insert_ne by done. destruct (d !! c') as [a'|]; [|done]. destruct (_ !! x'); [|done]. cbn. by rewrite option_guard_True by naive_solver.
    + split; [eexists; split; [done|]; intros x; rewrite Hmap; unfold flat; by rewrite E|].
      split; cbn; [done|]. intros c' p' k' x'. rewrite map_filter_lookup, Hmap. unfold flat.
      destruct (decide (c' = c)) as [->|Hc]; [by rewrite E|]. destruct (d !! c') as [a'|]; [|done]. destruct (_ !! x'); [|done]. cbn. by rewrite option_guard_True by naive_solver.
Qed.

Lemma run_refines cfg ops : forall d s, refines d s -> storage_history s ops (run cfg d ops).2.
Proof.
  induction ops as [|o ops IH]; intros d s Hr; cbn [Accounts_Model.run]; [done|].
  destruct (step cfg d o) as [d' r] eqn:E. destruct (step_refines _ _ _ _ _ _ Hr E) as [H1 H2].
  specialize (IH d' _ H2). destruct (run cfg d' ops) as [d'' rs]. cbn in *. done.
Qed.

Lemma refines_init : refines db_init (mk_storage {[0]} ∅).
Proof.
  split; cbn.
  - intros c. rewrite elem_of_singleton. unfold db_init. destruct (decide (c = 0)) as [->|].
    + rewrite lookup_singleton. split; eauto.
    + rewrite lookup_singleton_ne by done. split; [done|by intros [? ?]].
  - intros c p k x. rewrite lookup_empty. unfold flat, db_init. destruct (decide (c = 0)) as [->|].
    + by rewrite lookup_singleton.
    + by rewrite lookup_singleton_ne.
Qed.

(** ** C54 *)
Definition passworded (d : gmap N account) : Prop :=
  forall c a, c <> 0 -> d !! c = Some a -> exists u f s h, a_auth a = Argon u f (ServerArgon s h).
Lemma same_auth_passworded d d' :
  (forall c, match d !! c, d' !! c with
             | Some a, Some a' => a_auth a = a_auth a'
             | None, None => True
             | _, _ => False
             end) -> passworded d -> passworded d'.
Proof.
  intros Hs Hk c a Hc0 Hc. specialize (Hs c). rewrite Hc in Hs. destruct (d !! c) as [a0|] eqn:E; [|done].
  rewrite <- Hs. by eapply Hk.
Qed.
Lemma same_shape_passworded d d' : same_shape d d' -> passworded d -> passworded d'.
Proof. intros Hs. apply same_auth_passworded. intros c. specialize (Hs c). repeat case_match; try done. by destruct Hs. Qed.
Lemma byte_only_passworded d d' : byte_only d d' -> passworded d -> passworded d'.
Proof. intros Hs. apply same_auth_passworded. intros c. specialize (Hs c). repeat case_match; try done. by destruct Hs. Qed.

Lemma step_passworded cfg d o : allow_transient cfg = false -> passworded d -> passworded (step cfg d o).1.
Proof.
  intros Ht Hk. destruct (is_byte_op o) eqn:Eb. { eapply byte_only_passworded; [by apply byte_op_only|done]. }
  destruct o as [salt dflt cr|x|a b|a b| | | | |]; cbn [is_byte_op Accounts_Model.step] in *; try done.
  - destruct (register cfg d salt dflt cr) as [d1 r1] eqn:E. cbn. destruct (register_spec _ _ _ _ _ _ _ E) as [H1 H2].
    destruct r1 as [cid|]; [|by rewrite H1]. destruct (H2 cid eq_refl) as (Hcid & _ & _ & a & Hd & Ha & _).
    intros c a' Hc0 Hc. destruct (decide (c = cid)) as [->|].
    + destruct cr as [u p f s|u].
      * destruct (register_argon _ _ _ _ _ _ _ _ _ _ E) as (a2 & Ha2 & Hau). cbn in Hau. rewrite Hc in Ha2. simplify_eq. eauto.
      * exfalso. unfold Accounts_Model.register in E. cbn [cred_username derive_server_container] in E. rewrite Ht in E.
        destruct (_ =? 0); simplify_eq.
    + rewrite Hd, lookup_insert_ne in Hc by done. by eapply Hk.
  - unfold Accounts_Model.delete. destruct (d !! x) as [cl|] eqn:E; cbn [fst]; [|done].
    eapply same_shape_passworded; [apply delete_loop_shape|]. intros c a Hc0 Hc. apply lookup_delete_Some in Hc as [_ Hc]. by eapply Hk.
  - destruct (p2p_register d a b) as [[d1 ok]|] eqn:E; cbn [fst]; [|done]. eapply same_shape_passworded; [by eapply p2p_register_shape|done].
  - destruct (p2p_deregister d a b) as [d1 ok] eqn:E; cbn [fst]. eapply same_shape_passworded; [by eapply p2p_deregister_shape|done].
Qed.

Lemma run_passworded cfg ops : allow_transient cfg = false -> forall d, passworded d -> passworded (run cfg d ops).1.
Proof.
  intros Ht. induction ops as [|o ops IH]; intros d Hk; cbn [Accounts_Model.run]; [done|].
  destruct (step cfg d o) as [d' r] eqn:E. destruct (run cfg d' ops) as [d'' rs] eqn:E2. cbn.
  pose proof (step_passworded cfg d o Ht Hk) as H. rewrite E in H. specialize (IH d' H). by rewrite E2 in IH.
Qed.

Lemma passworded_init : passworded db_init.
Proof. intros c a Hc0 Hc. unfold db_init in Hc. apply lookup_singleton_Some in Hc as [<- _]. done. Qed.
End Accounts.
