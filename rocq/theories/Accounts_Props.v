(** C34-C38, C48: accounts. SHA3, Argon2id and the user-name hash are arbitrary functions; where a
    claim needs them to be collision free that is a visible hypothesis. *)
From stdpp Require Import prelude gmap.
From Verif Require Import Types_Model Accounts_Model Accounts_Spec Accounts_Proofs.
Local Open Scope N_scope.

(** C34 is false: right after a registration with a password, a request that names the user and
    carries the "password-less" credential variant is accepted. *)
Theorem C34_refuted cid_of argon cfg d salt dflt u p f s d' cid :
  register cid_of argon cfg d salt dflt (Enabled u p f s) = (d', Some cid) ->
  exists a, d' !! cid = Some a /\ validate_credentials argon a (Disabled u) = true.
Proof.
  intros H. destruct (register_argon _ _ _ _ _ _ _ _ _ _ _ _ H) as (a & Ha & Hau). exists a. split; [done|].
  unfold validate_credentials. rewrite Hau. cbn. by rewrite bool_decide_eq_true_2.
Qed.

(** Among requests that do carry a password hash, exactly those with the account's name and a
    matching hash are accepted. Missing for C34: the [Disabled] variant. *)
Theorem C34_partial cid_of argon cfg d salt dflt u p f s d' cid :
  register cid_of argon cfg d salt dflt (Enabled u p f s) = (d', Some cid) ->
  exists a settings, d' !! cid = Some a /\
    forall u' p' f' s', validate_credentials argon a (Enabled u' p' f' s') = true <->
                        u' = u /\ argon settings p' = argon settings p.
Proof.
  intros H. destruct (register_argon _ _ _ _ _ _ _ _ _ _ _ _ H) as (a & Ha & Hau).
  eexists a, _. split; [done|]. intros u' p' f' s'. by apply (validate_enabled cid_of argon) with (f := f).
Qed.

(** A concrete world for the examples: the hash of a list is the list itself (tagged by settings). *)
Definition ex_cid (s : rstring) : N := foldr (fun c acc => c + 256 * acc) 1 s.
Definition ex_argon (s : argon_settings) (m : list N) : list N := as_ad s ++ [0] ++ as_salt s ++ [0] ++ m.
Definition ex_cfg := mk_cfg false default_requirements (mk_as [] [] [7] 1).
Definition ex_dflt := mk_as [] [1] [2] 1.
Definition alice : rstring := [97; 108; 105; 99; 101].
Definition bobby : rstring := [98; 111; 98; 98; 121].
Example C34_case :
  exists d', register ex_cid ex_argon ex_cfg db_init [3] ex_dflt (Enabled alice [5; 6] alice None) = (d', Some (ex_cid alice)) /\
  (forall a, d' !! ex_cid alice = Some a ->
     validate_credentials ex_argon a (Enabled alice [5; 6] [] None) = true /\
     validate_credentials ex_argon a (Enabled alice [5; 7] [] None) = false /\
     validate_credentials ex_argon a (Enabled bobby [5; 6] [] None) = false /\
     validate_credentials ex_argon a (Disabled bobby) = false /\
     validate_credentials ex_argon a (Disabled alice) = true).
Proof. eexists. split; [vm_compute; reflexivity|]. intros a Ha. vm_compute in Ha. injection Ha as <-. vm_compute. done. Qed.

(** C35 is false: with collision-free hashes, any password with surrounding white space registers
    but is then refused. *)
Theorem C35_refuted cid_of sha argon cfg d full user pw secret salt1 salt2 dflt b :
  (forall x y, sha x = sha y -> x = y) -> (forall s x y, argon s x = argon s y -> x = y) ->
  trim pw <> pw ->
  login_after_registration cid_of sha argon cfg d full user pw pw secret salt1 salt2 dflt = Some b -> b = false.
Proof.
  intros Hs Ha Hne H. rewrite (registered_login_eq _ _ _ _ _ _ _ _ _ _ _ _ _ _ H). cbn.
  apply bool_decide_eq_false. intros E. apply Ha, Ha, Hs in E. congruence.
Qed.

(** It holds for every password without surrounding white space, whatever the hashes. *)
Theorem C35_partial cid_of sha argon cfg d full user pw secret salt1 salt2 dflt b :
  trim pw = pw ->
  login_after_registration cid_of sha argon cfg d full user pw pw secret salt1 salt2 dflt = Some b -> b = true.
Proof.
  intros Hp H. rewrite (registered_login_eq _ _ _ _ _ _ _ _ _ _ _ _ _ _ H). cbn. rewrite Hp. by apply bool_decide_eq_true.
Qed.

(** And no other password is accepted, if the hashes are collision free. *)
Theorem C35_only_that_password_partial cid_of sha argon cfg d full user pw pw' secret salt1 salt2 dflt :
  (forall x y, sha x = sha y -> x = y) -> (forall s x y, argon s x = argon s y -> x = y) ->
  login_after_registration cid_of sha argon cfg d full user pw pw' secret salt1 salt2 dflt = Some true -> pw' = trim pw.
Proof.
  intros Hs Ha H. apply registered_login_eq in H. cbn in H. symmetry in H. apply bool_decide_eq_true in H. by apply Ha, Ha, Hs in H.
Qed.

Example C35_case :
  let pw := [112; 119; 49; 50; 51; 52; 53] in
  let login := login_after_registration ex_cid (fun x => x) ex_argon ex_cfg db_init alice (32 :: alice) in
  login pw pw [1] [2] [3] ex_dflt = Some true /\
  login pw (pw ++ [33]) [1] [2] [3] ex_dflt = Some false /\
  login (32 :: pw) (32 :: pw) [1] [2] [3] ex_dflt = Some false /\
  login (32 :: pw) pw [1] [2] [3] ex_dflt = Some true.
Proof. vm_compute. done. Qed.

(** C36. In any history: two successful registrations that returned the same account ID, or used the
    same user name, have a successful deletion of that account in between. *)
Theorem C36_id_reused_only_after_delete cid_of argon cfg ops i j c :
  let outs := (run cid_of argon cfg db_init ops).2 in
  (i < j)%nat -> outs !! i = Some (RCid (Some c)) -> outs !! j = Some (RCid (Some c)) ->
  exists k, (i < k < j)%nat /\ ops !! k = Some (ODelete c) /\ outs !! k = Some (ROk true).
Proof. cbn. intros Hij Hi Hj. by eapply registered_exists. Qed.

Theorem C36_name_reused_only_after_delete cid_of argon cfg ops i j c c' salt dflt cr salt' dflt' cr' :
  let outs := (run cid_of argon cfg db_init ops).2 in
  (i < j)%nat ->
  ops !! i = Some (ORegister salt dflt cr) -> outs !! i = Some (RCid (Some c)) ->
  ops !! j = Some (ORegister salt' dflt' cr') -> outs !! j = Some (RCid (Some c')) ->
  cred_username cr = cred_username cr' ->
  exists k, (i < k < j)%nat /\ ops !! k = Some (ODelete c) /\ outs !! k = Some (ROk true).
Proof.
  cbn. intros Hij Hoi Hi Hoj Hj Hn.
  pose proof (run_register_cid _ _ _ _ _ _ _ _ _ _ Hoi Hi) as ->.
  pose proof (run_register_cid _ _ _ _ _ _ _ _ _ _ Hoj Hj) as ->.
  rewrite Hn in *. by eapply registered_exists.
Qed.

(** At any time, two server accounts with one user name are the same account (id 0 is the node's
    own local account). *)
Theorem C36_unique_names cid_of argon cfg ops c c' a a' :
  let d := (run cid_of argon cfg db_init ops).1 in
  d !! c = Some a -> d !! c' = Some a' -> c <> 0 -> c' <> 0 ->
  auth_username (a_auth a) = auth_username (a_auth a') -> c = c'.
Proof.
  cbn. intros H1 H2 Hc Hc' Hu. pose proof (run_keyed cid_of argon cfg ops db_init (keyed_init _)) as Hk.
  destruct (Hk _ _ H1), (Hk _ _ H2); congruence.
Qed.

(** A registration that fails changes nothing; one that succeeds adds one fresh account with the
    requested name and changes nothing else. *)
Theorem C36_registration_effect cid_of argon cfg d salt dflt cr d' r :
  step cid_of argon cfg d (ORegister salt dflt cr) = (d', RCid r) ->
  match r with
  | None => d' = d
  | Some c => d !! c = None /\
              (exists a, d' !! c = Some a /\ auth_username (a_auth a) = cred_username cr /\ peer_list d' c = None) /\
              forall x, x <> c -> d' !! x = d !! x
  end.
Proof.
  cbn [step]. destruct (register _ _ _ _ _ _ _) as [d1 r1] eqn:E. intros ?; simplify_eq.
  destruct (register_spec _ _ _ _ _ _ _ _ _ E) as [H1 H2]. destruct r as [c|]; [|auto].
  destruct (H2 c eq_refl) as (_ & _ & Hn & a & -> & Ha & Hp & _). split; [done|]. split.
  - exists a. rewrite lookup_insert. repeat split; try done. unfold peer_list. by rewrite lookup_insert.
  - intros x Hx. by rewrite lookup_insert_ne.
Qed.

Definition ex_reg (n : rstring) : op := ORegister [3] ex_dflt (Enabled n [5] n None).
Example C36_case :
  (run ex_cid ex_argon ex_cfg db_init [ex_reg alice; ex_reg alice; ODelete (ex_cid alice); ex_reg alice]).2 =
  [RCid (Some (ex_cid alice)); RCid None; ROk true; RCid (Some (ex_cid alice))].
Proof. vm_compute. done. Qed.

(** C37. Symmetry and "no listed peer is a deleted account", after any history. *)
Theorem C37_symmetric_partial cid_of argon cfg ops a b :
  let d := (run cid_of argon cfg db_init ops).1 in
  (lists d a b <-> lists d b a) /\ (lists d a b -> is_Some (d !! b) /\ a <> b).
Proof.
  cbn zeta. pose proof (run_sym cid_of argon cfg ops db_init sym_init) as [Hs Hself].
  rewrite !(lists_cnt cid_of argon). rewrite (Hs b a). split; [done|]. intros H. split.
  - rewrite Hs in H. unfold cnt in H. destruct (_ !! b); [by eexists|lia].
  - intros ->. rewrite Hself in H. lia.
Qed.

(** Deregistering removes one listing on each side: it makes the two no longer mutual when each had
    been listed once. Missing for C37: the general case, which is false. *)
Theorem C37_deregister_partial cid_of argon cfg ops a b d' :
  let d := (run cid_of argon cfg db_init ops).1 in
  step cid_of argon cfg d (OP2pDeregister a b) = (d', ROk true) ->
  (forall l, peer_list d a = Some l -> NoDup l) ->
  lists d a b /\ ~ lists d' a b /\ ~ lists d' b a.
Proof.
  cbn. intros H Hnd. pose proof (run_sym cid_of argon cfg ops db_init sym_init) as Hs.
  destruct (deregister_cnt cid_of argon cfg _ _ _ _ _ Hs H) as (H1 & _ & H3). destruct (H3 eq_refl) as [H4 H5].
  assert (lists (run cid_of argon cfg db_init ops).1 a b) as Hl by by apply H1.
  split; [done|]. rewrite !(lists_cnt cid_of argon), H4, H5. rewrite <- (sym_cnt _ Hs a b).
  assert (cnt (run cid_of argon cfg db_init ops).1 a b <= 1)%nat; [|lia].
  unfold cnt. specialize (Hnd). unfold peer_list in Hnd. destruct (_ !! a) as [x|]; [|lia].
  destruct (a_peers x) as [l|]; [|cbn; lia]. specialize (Hnd l eq_refl). by apply (NoDup_occ cid_of argon).
Qed.

(** Registering two peers twice and deregistering them once leaves them mutual. *)
Theorem C37_refuted : exists ops a b,
  let d := (run ex_cid ex_argon ex_cfg db_init ops).1 in
  exists d', step ex_cid ex_argon ex_cfg d (OP2pDeregister a b) = (d', ROk true) /\ lists d' a b /\ lists d' b a.
Proof.
  exists [ex_reg alice; ex_reg bobby; OP2pRegister (ex_cid alice) (ex_cid bobby); OP2pRegister (ex_cid alice) (ex_cid bobby)],
         (ex_cid alice), (ex_cid bobby).
  eexists. split; [vm_compute; reflexivity|]. split; eexists; (split; [vm_compute; reflexivity|]); vm_compute; left.
Qed.

(** Registering an account with itself never completes. *)
Theorem C37_self_registration_hangs cid_of argon cfg d a :
  is_Some (d !! a) -> step cid_of argon cfg d (OP2pRegister a a) = (d, RHang).
Proof. intros [x Hx]. cbn. unfold p2p_register. by rewrite Hx, N.eqb_refl. Qed.

Example C37_case :
  let d := (run ex_cid ex_argon ex_cfg db_init
     [ex_reg alice; ex_reg bobby; OP2pRegister (ex_cid alice) (ex_cid bobby)]).1 in
  peer_list d (ex_cid alice) = Some [ex_cid bobby] /\ peer_list d (ex_cid bobby) = Some [ex_cid alice] /\
  peer_list (step ex_cid ex_argon ex_cfg d (OP2pDeregister (ex_cid alice) (ex_cid bobby))).1 (ex_cid bobby) = Some [] /\
  peer_list (step ex_cid ex_argon ex_cfg d (ODelete (ex_cid alice))).1 (ex_cid bobby) = Some [].
Proof. vm_compute. done. Qed.

(** C38: the answers of any history are those of one flat map from addresses to values. *)
Theorem C38_storage_is_a_map cid_of argon cfg ops :
  storage_history (mk_storage {[0]} ∅) ops (run cid_of argon cfg db_init ops).2.
Proof. apply run_refines, refines_init. Qed.

Example C38_case :
  let k := [1] in let x := [2] in let y := [3] in
  let show r := match r with RMap m => inl (map_to_list m) | _ => inr r end in
  show <$> (run ex_cid ex_argon ex_cfg db_init
    [OByteStore 0 5 k x [10]; OByteStore 0 5 k x [11]; OByteStore 0 5 k y [12]; OByteGet 0 5 k x; OByteGet 0 6 k x;
     OByteRemove 0 5 k x; OByteGetKey 0 5 k; OByteRemoveKey 0 5 k; OByteGet 0 5 k y]).2 =
  [inr (RVal None); inr (RVal (Some [10])); inr (RVal None); inr (RVal (Some [11])); inr (RVal None); inr (RVal (Some [11]));
   inl [(y, [12])]; inl [(y, [12])]; inr (RVal None)].
Proof. vm_compute. done. Qed.

(** C48. The rule is exact when lengths are counted in UTF-8 bytes ... *)
Theorem C48_rule_in_bytes_partial username password full_name :
  check default_requirements username password full_name = true <->
  3 <= byte_len username <= 37 /\ 32 ∉ username /\
  (forall p, password = Some p -> 7 <= byte_len p <= 17 /\ 32 ∉ p) /\
  2 <= byte_len full_name <= 77.
Proof. apply check_iff. Qed.

(** ... so it is the documented one for ASCII strings ... *)
Theorem C48_ascii_partial username password full_name :
  let ascii s := Forall (fun c => c < 128) s in
  let chars (s : rstring) := N.of_nat (length s) in
  ascii username -> ascii full_name -> (forall p, password = Some p -> ascii p) ->
  check default_requirements username password full_name = true <->
  3 <= chars username <= 37 /\ 32 ∉ username /\
  (forall p, password = Some p -> 7 <= chars p <= 17 /\ 32 ∉ p) /\
  2 <= chars full_name <= 77.
Proof.
  cbn. intros Hu Hf Hp. rewrite check_iff. cbn [min_username max_username min_name max_name min_password max_password default_requirements].
  rewrite !byte_len_ascii by done. repeat apply and_iff_compat_l. apply and_iff_compat_r.
  split; intros H p Hpp; specialize (H p Hpp); specialize (Hp p Hpp); rewrite ?byte_len_ascii in *; done.
Qed.

(** ... but not for characters: a 2-character name is accepted, a 13-character one refused. *)
Theorem C48_refuted : exists short long full,
  length short = 2%nat /\ length long = 13%nat /\
  check default_requirements short None full = true /\ check default_requirements long None full = false.
Proof. exists [233; 233], (repeat 8364 13), [97; 98]. vm_compute. done. Qed.

(** Registration never applies the password rule: the verdict is the same for every password. *)
Theorem C48_password_rule_not_applied cid_of sha argon cfg d full user pw pw' secret salt1 salt2 dflt :
  (register cid_of argon cfg d salt2 dflt (new_register sha argon full user pw secret salt1)).2 =
  (register cid_of argon cfg d salt2 dflt (new_register sha argon full user pw' secret salt1)).2.
Proof.
  unfold register. cbn [cred_username new_register derive_server_container auth_username auth_full_name].
  destruct (_ =? 0); [done|]. destruct (negb _); [done|]. by destruct (d !! _).
Qed.

Example C48_case :
  check default_requirements alice (Some [112; 119; 49; 50; 51; 52; 53]) alice = true /\
  check default_requirements alice (Some [112; 119; 49; 50; 51; 52]) alice = false /\
  check default_requirements (alice ++ [32]) None alice = false.
Proof. vm_compute. done. Qed.

(** C54. A server configured without password-less accounts never holds one: after any sequence of
    operations every account other than the node's own (client id 0) is protected by a password hash. *)
Theorem C54_no_passwordless_account cid_of argon cfg ops :
  allow_transient cfg = false ->
  forall c a, c <> 0 -> (run cid_of argon cfg db_init ops).1 !! c = Some a ->
    exists u f s h, a_auth a = Argon u f (ServerArgon s h).
Proof. intros Ht c a Hc. apply (run_passworded cid_of argon cfg ops Ht _ passworded_init c a Hc). Qed.

(** With the option on, the same request does create one. *)
Example C54_case :
  let on := mk_cfg true default_requirements (mk_as [] [] [7] 1) in
  (register ex_cid ex_argon ex_cfg db_init [3] ex_dflt (Disabled alice)).2 = None /\
  (register ex_cid ex_argon on db_init [3] ex_dflt (Disabled alice)).2 = Some (ex_cid alice).
Proof. vm_compute. done. Qed.

Print Assumptions C54_no_passwordless_account.
Print Assumptions C34_refuted.
Print Assumptions C34_partial.
Print Assumptions C35_refuted.
Print Assumptions C35_partial.
Print Assumptions C35_only_that_password_partial.
Print Assumptions C36_id_reused_only_after_delete.
Print Assumptions C36_name_reused_only_after_delete.
Print Assumptions C36_unique_names.
Print Assumptions C36_registration_effect.
Print Assumptions C37_symmetric_partial.
Print Assumptions C37_deregister_partial.
Print Assumptions C37_refuted.
Print Assumptions C37_self_registration_hangs.
Print Assumptions C38_storage_is_a_map.
Print Assumptions C48_rule_in_bytes_partial.
Print Assumptions C48_ascii_partial.
Print Assumptions C48_refuted.
Print Assumptions C48_password_rule_not_applied.
