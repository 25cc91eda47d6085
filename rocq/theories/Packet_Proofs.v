From Coq Require Import ZifyBool ZifyNat ZifyN.
From stdpp Require Import prelude.
From Verif Require Import Bytes Packet_Model.
Local Open Scope N_scope.

(** ** packet vector *)
Lemma find_ports_Some m src loc idx r :
  find_ports m src loc idx = Some r ->
  idx <= r /\ m !! N.to_nat (r - idx) = Some (src, loc).
Proof.
  revert idx; induction m as [|[i o] m IH]; intros idx H; cbn [find_ports] in H; [done|].
  destruct ((i =? src) && (o =? loc)) eqn:E.
  - injection H as <-. split; [lia|]. rewrite N.sub_diag. cbn. f_equal. f_equal; lia.
  - apply IH in H as [H1 H2]. split; [lia|].
    replace (N.to_nat (r - idx)) with (S (N.to_nat (r - (idx + 1)))) by lia. done.
Qed.

Lemma find_ports_NoDup m n src loc idx :
  NoDup m.*1 -> m !! n = Some (src, loc) -> find_ports m src loc idx = Some (idx + N.of_nat n).
Proof.
  revert n idx; induction m as [|[i o] m IH]; intros n idx Hd Hn; [done|].
  cbn in Hd. apply NoDup_cons in Hd as [Hi Hd]. destruct n as [|n]; cbn in Hn.
  - injection Hn as -> ->. cbn. rewrite !N.eqb_refl. cbn. f_equal. lia.
  - cbn [find_ports]. destruct ((i =? src) && (o =? loc)) eqn:E.
    + exfalso. apply Hi. assert (i = src) as -> by lia. apply elem_of_list_fmap. exists (src, loc). split; [done|].
      by apply elem_of_list_lookup_2 in Hn.
    + rewrite (IH n (idx + 1)) by done. f_equal. lia.
Qed.

Definition ports : list N := [0;1;2;3;4;5;6;7;8;9;10;11;12;13].

Lemma ports_NoDup : NoDup ports.
Proof. apply (bool_decide_unpack _). vm_compute. exact I. Qed.

Lemma mapping_facts ins outs :
  Permutation ins ports -> Permutation outs ports ->
  NoDup (port_mapping ins outs).*1 /\ length (port_mapping ins outs) = 14%nat.
Proof.
  intros Hi Ho. unfold port_mapping. pose proof (Permutation_length Hi) as Li. pose proof (Permutation_length Ho) as Lo. cbn in Li, Lo.
  rewrite fst_zip by lia. split; [rewrite Hi; apply ports_NoDup|]. rewrite zip_with_length. lia.
Qed.

Lemma coordinates_decode ins outs seq :
  Permutation ins ports -> Permutation outs ports -> seq / 14 < 2 ^ 32 ->
  exists pv, generate_packet_vector seq (port_mapping ins outs) = Some pv /\
    generate_packet_coordinates_inv (pv_wave pv) (pv_local pv) (pv_remote pv) (port_mapping ins outs) = Some seq.
Proof.
  intros Hi Ho Hw. destruct (mapping_facts ins outs Hi Ho) as [Hd Hl].
  unfold generate_packet_vector, generate_packet_coordinates_inv. rewrite Hl. change (N.of_nat 14) with 14.
  destruct (lookup_lt_is_Some_2 (port_mapping ins outs) (N.to_nat (seq mod 14))) as [[l r] Hlr].
  { rewrite Hl. pose proof (N.mod_lt seq 14). lia. }
  rewrite Hlr. eexists; split; [done|]. cbn [pv_wave pv_local pv_remote].
  rewrite (find_ports_NoDup _ _ _ _ _ Hd Hlr). f_equal. rewrite (N.mod_small _ _ Hw).
  pose proof (N.div_mod seq 14). lia.
Qed.

Lemma coordinates_sound ins outs wave src loc seq :
  Permutation ins ports -> Permutation outs ports -> wave < 2 ^ 32 ->
  generate_packet_coordinates_inv wave src loc (port_mapping ins outs) = Some seq ->
  seq / 14 = wave /\
  generate_packet_vector seq (port_mapping ins outs) = Some (mk_pv wave src loc seq).
Proof.
  intros Hi Ho Hw. destruct (mapping_facts ins outs Hi Ho) as [Hd Hl].
  unfold generate_packet_vector, generate_packet_coordinates_inv. rewrite Hl. change (N.of_nat 14) with 14.
  destruct (find_ports _ _ _ _) as [idx|] eqn:E; [|done]. intros [= <-].
  apply find_ports_Some in E as [_ E]. rewrite N.sub_0_r in E.
  assert (idx < 14). { apply lookup_lt_Some in E. rewrite Hl in E. lia. }
  assert ((wave * 14 + idx) / 14 = wave) as Hq. { rewrite N.div_add_l by lia. rewrite N.div_small by done. lia. }
  assert ((wave * 14 + idx) mod 14 = idx) as Hr. { rewrite N.add_comm, N.mod_add by lia. by apply N.mod_small. }
  split; [done|]. rewrite Hr, E, Hq. rewrite N.mod_small by done. done.
Qed.

(** ** header *)
Definition header_ok (h : header) : Prop :=
  h_cmd_primary h < pow256 1 /\ h_cmd_aux h < pow256 1 /\ h_algorithm h < pow256 1 /\ h_security_level h < pow256 1 /\
  h_protocol_version h < pow256 4 /\ h_context_info h < pow256 16 /\ h_group h < pow256 8 /\ h_wave_id h < pow256 4 /\
  h_session_cid h < pow256 8 /\ h_entropy_bank_version h < pow256 4 /\ h_timestamp h < pow256 8 /\ h_target_cid h < pow256 8.

Lemma header_bytes_length h : length (header_bytes h) = HDP_HEADER_BYTE_LEN.
Proof. unfold header_bytes. rewrite !app_length, !be_enc_length. reflexivity. Qed.

Lemma header_bytes_ok h : bytes_ok (header_bytes h).
Proof. unfold header_bytes, bytes_ok. rewrite !Forall_app. repeat split; apply be_enc_bytes. Qed.

Lemma field_app_l a l off len : length a = off -> field (a ++ l) off len = field l 0 len.
Proof. intros H. unfold field. rewrite drop_0. rewrite drop_app_ge by lia. rewrite <- H, Nat.sub_diag. by rewrite drop_0. Qed.

Lemma field_enc n v l : v < pow256 n -> field (be_enc n v ++ l) 0 n = v.
Proof.
  intros H. unfold field. rewrite drop_0, take_app_alt by (symmetry; apply be_enc_length). by apply be_dec_enc.
Qed.

Lemma field_skip n v l off len : (n <= off)%nat -> field (be_enc n v ++ l) off len = field l (off - n) len.
Proof.
  intros H. unfold field. rewrite drop_app_ge by (rewrite be_enc_length; done). by rewrite be_enc_length.
Qed.

Lemma header_round_trip h rest : header_ok h -> header_parse (header_bytes h ++ rest) = Some (h, rest).
Proof.
  intros (H1&H2&H3&H4&H5&H6&H7&H8&H9&H10&H11&H12). unfold header_parse.
  rewrite bool_decide_eq_false_2 by (rewrite app_length, header_bytes_length; lia).
  rewrite drop_app_alt by (symmetry; apply header_bytes_length). do 2 f_equal.
  destruct h as [f1 f2 f3 f4 f5 f6 f7 f8 f9 f10 f11 f12]. unfold header_bytes. cbn [h_cmd_primary h_cmd_aux h_algorithm h_security_level h_protocol_version h_context_info h_group h_wave_id h_session_cid h_entropy_bank_version h_timestamp h_target_cid] in *.
  rewrite <- !app_assoc. f_equal;
  repeat (rewrite field_skip by (cbn; lia); cbn [Nat.sub]); rewrite field_enc by assumption; reflexivity.
Qed.

Lemma take_drop_split (l : list N) a b : take (a + b) l = take a l ++ take b (drop a l).
Proof. rewrite <- (take_drop a (take (a + b) l)), take_take, take_drop_commute. f_equal; f_equal; lia. Qed.

Lemma be_enc_field l off len :
  bytes_ok l -> (off + len <= length l)%nat -> be_enc len (field l off len) = take len (drop off l).
Proof.
  intros H Hl. unfold field. set (x := take len (drop off l)).
  assert (length x = len) as Hx by (subst x; rewrite take_length, drop_length; lia).
  rewrite <- Hx at 1. apply be_enc_dec. subst x. by apply Forall_take, Forall_drop.
Qed.

Lemma header_reparse l h rest :
  bytes_ok l -> header_parse l = Some (h, rest) -> header_bytes h ++ rest = l /\ header_ok h.
Proof.
  intros Hb. unfold header_parse. case_bool_decide as E; [done|]. intros [= <- <-]. unfold HDP_HEADER_BYTE_LEN in *. split.
  - unfold header_bytes. cbn [h_cmd_primary h_cmd_aux h_algorithm h_security_level h_protocol_version h_context_info h_group h_wave_id h_session_cid h_entropy_bank_version h_timestamp h_target_cid].
    rewrite !be_enc_field by (try done; lia).
    rewrite <- (take_drop 64 l) at 14. f_equal.
    change 64%nat with (1+(1+(1+(1+(4+(16+(8+(4+(8+(4+(8+8)))))))))))%nat.
    repeat (rewrite take_drop_split, ?drop_drop). cbn [Nat.add]. reflexivity.
  - assert (forall off len, (off + len <= length l)%nat -> field l off len < pow256 len) as Hf.
    { intros off len Ho. unfold field. set (x := take len (drop off l)).
      assert (length x = len) as Hx by (subst x; rewrite take_length, drop_length; lia).
      rewrite <- Hx. apply be_dec_lt. subst x. by apply Forall_take, Forall_drop. }
    unfold header_ok. cbn [h_cmd_primary h_cmd_aux h_algorithm h_security_level h_protocol_version h_context_info h_group h_wave_id h_session_cid h_entropy_bank_version h_timestamp h_target_cid].
    repeat split; apply Hf; lia.
Qed.

Lemma header_short l : (length l < 64)%nat <-> header_parse l = None.
Proof. unfold header_parse, HDP_HEADER_BYTE_LEN. case_bool_decide; split; intros; done || lia. Qed.

(** ** obfuscator *)
Lemma cipher_inner_inv a b c : a < 256 -> c < 256 ->
  cipher_inner a b (cipher_inner a b c false) true = c.
Proof.
  intros Ha Hc. unfold cipher_inner. rewrite N.lxor_assoc, N.lxor_nilpotent, N.lxor_0_r.
  destruct (N.ltb_spec (c + a) 256).
  - rewrite (N.mod_small (c + a)) by done. replace (c + a + (256 - a)) with (c + 1 * 256) by lia.
    rewrite N.mod_add by lia. by apply N.mod_small.
  - replace (c + a) with (c + a - 256 + 1 * 256) by lia. rewrite N.mod_add, (N.mod_small (c + a - 256)) by lia.
    replace (c + a - 256 + (256 - a)) with c by lia. by apply N.mod_small.
Qed.

Lemma key_pair_lt k i : (key_pair k i).1 < 256.
Proof.
  unfold key_pair. cbn [fst]. destruct (be_enc 16 k !! (i mod 8)%nat) as [x|] eqn:E; cbn; [|lia].
  pose proof (be_enc_bytes 16 k) as H. unfold bytes_ok in H. rewrite Forall_lookup in H. by eapply H.
Qed.

Lemma apply_cipher_length k i p : length (apply_cipher k i p) = length p.
Proof. unfold apply_cipher. apply imap_length. Qed.

Lemma apply_cipher_inv k p : bytes_ok p -> apply_cipher k true (apply_cipher k false p) = p.
Proof.
  intros H. unfold apply_cipher. apply list_eq. intros i. rewrite !list_lookup_imap.
  destruct (p !! i) as [c|] eqn:E; [|done]. cbn [fmap option_fmap option_map]. f_equal.
  destruct (i <? HDP_HEADER_BYTE_LEN)%nat; [|done].
  apply cipher_inner_inv; [apply key_pair_lt|]. unfold bytes_ok in H. rewrite Forall_lookup in H. by eapply H.
Qed.

Lemma apply_cipher_payload k i p : drop 64 (apply_cipher k i p) = drop 64 p.
Proof.
  apply list_eq. intros j. rewrite !lookup_drop. unfold apply_cipher. rewrite list_lookup_imap.
  destruct (p !! (64 + j)%nat); [|done]. cbn [fmap option_fmap option_map]. reflexivity.
Qed.

(** What a run looks like from outside. *)
Definition wire_ok (p : list N) : bool := (HDP_HEADER_BYTE_LEN <=? length p)%nat.
(** The packets that the peer should see: with obfuscation on, everything at least as long as a
    header; with obfuscation off, everything. *)
Definition deliverable (off : bool) (ps : list (list N)) : list (list N) :=
  if off then ps else filter (fun p => wire_ok p = true) ps.

Inductive conn_run : conn -> list conn_op -> conn -> Prop :=
| run_nil s : conn_run s [] s
| run_snoc s0 ops s op :
    conn_run s0 ops s ->
    (* packets consist of bytes; the server does not speak before it has heard from the client,
       unless it was given a key in advance *)
    match op with
    | ClientSends p => bytes_ok p
    | ServerSends p => bytes_ok p /\ (c_started s = true \/ is_Some (o_expected (c_server s)))
    | _ => True
    end ->
    conn_run s0 (ops ++ [op]) (conn_step s op).

Definition key_valid (k : N) : Prop := 0 < k < DISABLED_KEY.

Inductive compatible : obf_settings -> obf_settings -> N -> option N -> Prop :=
| compat_off ss rand : (forall k, ss <> ObfPsk k) -> compatible ObfDisabled ss rand None
| compat_on ss rand : (forall k, ss <> ObfPsk k) -> key_valid rand -> compatible ObfEnabled ss rand (Some rand)
| compat_client_psk ss rand k : (forall k, ss <> ObfPsk k) -> key_valid k -> compatible (ObfPsk k) ss rand (Some k)
| compat_psk rand k : key_valid k -> compatible (ObfPsk k) (ObfPsk k) rand (Some k).

(** Invariant; [key = None] means off. *)
Definition enc (key : option N) (p : list N) : list N :=
  match key with
  | None => p
  | Some k => if wire_ok p then apply_cipher k false p else p
  end.

Definition off (key : option N) : bool := match key with None => true | Some _ => false end.

Definition client_obf (key : option N) : obf :=
  match key with None => mk_obf None None true false | Some k => mk_obf (Some k) None false false end.

Definition server_ready (key : option N) (v : obf) : Prop :=
  match key with
  | None => v = mk_obf None None true true
  | Some k => exists e, v = mk_obf (Some k) e false false
  end.

Record Inv (key : option N) (first : list N) (s : conn) : Prop := {
  inv_client : c_client s = client_obf key;
  inv_server : if c_started s then server_ready key (c_server s)
               else (is_Some (o_expected (c_server s)) -> server_ready key (c_server s) /\ off key = false) /\
                    (o_expected (c_server s) = None -> c_server s = mk_obf None None false false);
  inv_up : exists a b, c_up_sent s = a ++ b /\ c_up_got s = deliverable (off key) a /\
             c_up s = (if c_started s then [] else [first]) ++ (enc key <$> b) /\
             (c_started s = false -> a = []) /\ Forall bytes_ok b;
  inv_down : exists a b, c_down_sent s = a ++ b /\ c_down_got s = deliverable (off key) a /\
             c_down s = enc key <$> b /\ Forall bytes_ok b;
  inv_fail : c_failed s = false }.

Lemma deliverable_snoc o a p :
  deliverable o (a ++ [p]) = deliverable o a ++ (if o || wire_ok p then [p] else []).
Proof.
  unfold deliverable. destruct o; cbn [orb]; [done|]. rewrite filter_app. f_equal.
  destruct (wire_ok p) eqn:E; [by rewrite filter_cons_True|rewrite filter_cons_False by congruence; done].
Qed.

Lemma recv_ready key v p :
  (v = client_obf key \/ server_ready key v) -> bytes_ok p ->
  on_packet_received v (enc key p) =
    (v, if off key || wire_ok p then RPass p else RIgnored).
Proof.
  intros Hv Hp. unfold on_packet_received.
  destruct key as [k|]; cbn [enc off orb client_obf server_ready] in *.
  - assert (exists e, v = mk_obf (Some k) e false false) as [e ->] by (destruct Hv as [->|[e ->]]; eauto).
    cbn [o_disabled o_key]. destruct (wire_ok p) eqn:E.
    + rewrite apply_cipher_length. unfold wire_ok in E. apply Nat.leb_le in E.
      destruct (Nat.ltb_spec (length p) HDP_HEADER_BYTE_LEN); [lia|]. by rewrite apply_cipher_inv.
    + unfold wire_ok in E. apply Nat.leb_gt in E. destruct (Nat.ltb_spec (length p) HDP_HEADER_BYTE_LEN); [done|lia].
  - assert (o_disabled v = true) as -> by (destruct Hv as [->| ->]; done). done.
Qed.

Lemma send_ready key v p :
  (v = client_obf key \/ server_ready key v) -> prepare_outbound v p = (v, enc key p).
Proof.
  intros Hv. unfold prepare_outbound. destruct key as [k|]; cbn [enc client_obf server_ready] in *.
  - assert (exists e, v = mk_obf (Some k) e false false) as [e ->] by (destruct Hv as [->|[e ->]]; eauto).
    cbn [o_client_intends_disable o_disabled andb o_key o_expected]. unfold wire_ok. by destruct (HDP_HEADER_BYTE_LEN <=? length p)%nat.
  - destruct Hv as [->| ->]; done.
Qed.

Lemma app_got o (a : list (list N)) p (g : list (list N)) :
  g = deliverable o a ->
  (match (if o || wire_ok p then RPass p else RIgnored) with RPass x => g ++ [x] | _ => g end) = deliverable o (a ++ [p]).
Proof. intros ->. rewrite deliverable_snoc. destruct (o || wire_ok p); [done|by rewrite app_nil_r]. Qed.

Lemma no_err (b : bool) p : (match (if b then RPass p else RIgnored) with RErr => true | _ => false end) = false.
Proof. by destruct b. Qed.

  Lemma key_lt k : key_valid k -> k < pow256 16.
  Proof. intros [_ H]. change (pow256 16) with (2 ^ 128). change DISABLED_KEY with (2 ^ 128 - 1) in H. lia. Qed.

  Lemma first_learn filler k : key_valid k ->
    on_packet_received (mk_obf None None false false) (be_enc 16 k ++ filler) = (mk_obf (Some k) None false false, RIgnored).
  Proof.
    intros Hk. unfold on_packet_received. cbn [o_disabled o_key o_expected].
    destruct (Nat.leb_spec 16 (length (be_enc 16 k ++ filler))) as [_|H]; [|rewrite app_length, be_enc_length in H; lia].
    rewrite take_app_alt by (symmetry; apply be_enc_length). rewrite be_dec_enc by by apply key_lt.
    destruct Hk as [Hk1 Hk2]. destruct (N.eqb_spec k 0); [lia|]. destruct (N.eqb_spec k DISABLED_KEY); [lia|]. done.
  Qed.

Section Conn.
  Variables (cs ss : obf_settings) (rand : N) (filler : list N) (key : option N).
  Hypothesis Hcompat : compatible cs ss rand key.
  Hypothesis Hfill : (length filler < 48)%nat.
  Let first := (new_client cs rand filler).2.

  Definition FirstOk (v : obf) : Prop :=
    exists v', on_packet_received v first = (v', RIgnored) /\ server_ready key v'.

  Lemma first_learn_ok v :
    ((is_Some (o_expected v) -> server_ready key v /\ off key = false) /\
     (o_expected v = None -> v = mk_obf None None false false)) ->
    (is_Some (o_expected v) <-> exists k, ss = ObfPsk k) ->
    FirstOk v.
  Proof.
    intros [H1 H2] Hs. unfold FirstOk. destruct (o_expected v) as [e|] eqn:E.
    - destruct H1 as [H1 H1']; [eauto|]. destruct key as [k|]; [|done]. destruct H1 as [e' ->].
      exists (mk_obf (Some k) e' false false). split; [|by exists e'].
      unfold on_packet_received. cbn [o_disabled o_key].
      destruct (Nat.ltb_spec (length first) HDP_HEADER_BYTE_LEN) as [|H]; [done|exfalso].
      destruct Hs as [[k' Hk'] _]; [eauto|]. unfold HDP_HEADER_BYTE_LEN in H.
      assert (length first < 64)%nat; [|lia]. subst first. inversion Hcompat; subst; cbn [new_client snd];
      rewrite ?app_length, ?be_enc_length; lia.
    - rewrite H2 by done. destruct Hs as [_ Hs].
      assert (forall k, ss <> ObfPsk k) as Hn. { intros k Hk. destruct Hs as [? ?]; [eauto|done]. }
      inversion Hcompat; subst.
      + eexists. split; [|reflexivity]. reflexivity.
      + eexists. split; [by apply (first_learn filler rand)|]. by exists None.
      + eexists. split; [by apply (first_learn filler k)|]. by exists None.
      + exfalso. by eapply Hn.
  Qed.

  Definition KeepExp (s : conn) : Prop := is_Some (o_expected (c_server s)) <-> exists k, ss = ObfPsk k.

  Lemma recv_exp v p : o_expected (on_packet_received v p).1 = o_expected v.
  Proof. unfold on_packet_received. repeat case_match; done. Qed.
  Lemma send_exp v p : o_expected (prepare_outbound v p).1 = o_expected v.
  Proof. unfold prepare_outbound. repeat case_match; done. Qed.

  Lemma inv_init : Inv key first (conn_init cs ss rand filler) /\ KeepExp (conn_init cs ss rand filler).
  Proof.
    unfold conn_init. subst first. split.
    - split.
      + inversion Hcompat; subst; done.
      + replace (c_started _) with false by by destruct (new_client cs rand filler).
        replace (c_server _) with (new_server ss) by by destruct (new_client cs rand filler).
        inversion Hcompat as [? ? Hn|? ? Hn|? ? ? Hn|]; subst; try (destruct ss as [| |k']; try (by destruct (Hn k'));
          (split; [intros [? ?]; done|done])).
        split; [intros _; split; [by eexists|done]|done].
      + exists [], []. destruct (new_client cs rand filler). cbn. repeat split; try done. unfold deliverable. by destruct (off key).
      + exists [], []. destruct (new_client cs rand filler). cbn. repeat split; try done. unfold deliverable. by destruct (off key).
      + by destruct (new_client cs rand filler).
    - unfold KeepExp. destruct (new_client cs rand filler) as [c f]. cbn. destruct ss; cbn; split; try (intros [? ?]; done); intros _; eauto.
  Qed.

  Lemma inv_step s op :
    Inv key first s -> KeepExp s ->
    match op with
    | ClientSends p => bytes_ok p
    | ServerSends p => bytes_ok p /\ (c_started s = true \/ is_Some (o_expected (c_server s)))
    | _ => True
    end ->
    Inv key first (conn_step s op) /\ KeepExp (conn_step s op).
  Proof.
    intros [Hc Hs (ua & ub & Hus & Hug & Hu & Hu0 & Hub) (da & db & Hds & Hdg & Hd & Hdb) Hf] Hk Hop.
    destruct op as [p|p| |]; cbn [conn_step].
    - rewrite Hc, (send_ready key) by by left. split; [|done]. split; cbn; try done.
      + exists ua, (ub ++ [p]). repeat split.
        * rewrite Hus. by rewrite app_assoc.
        * done.
        * rewrite Hu, fmap_app. by rewrite app_assoc.
        * done.
        * apply Forall_app. split; [done|]. by constructor.
      + by exists da, db.
    - destruct Hop as [Hp Hready].
      assert (server_ready key (c_server s)) as Hsr.
      { destruct (c_started s); [done|]. destruct Hready as [|He]; [done|]. by apply Hs. }
      rewrite (send_ready key) by by right. split; [|done]. split; cbn; try done.
      + by exists ua, ub.
      + exists da, (db ++ [p]). repeat split.
        * rewrite Hds. by rewrite app_assoc.
        * done.
        * by rewrite Hd, fmap_app.
        * apply Forall_app. split; [done|]. by constructor.
    - rewrite Hu. destruct (c_started s) eqn:Est; cbn [app].
      + destruct ub as [|p ub]; [cbn; split; [split; try done; [by rewrite Est|rewrite Est; by exists ua, []|by exists da, db]|done]|].
        cbn [fmap list_fmap]. inversion Hub; subst.
        rewrite (recv_ready key) by (by right || done). split; [|done]. split; cbn; try done.
        * exists (ua ++ [p]), ub. repeat split; try done.
          -- rewrite Hus. by rewrite <- app_assoc.
          -- by apply app_got.
        * by exists da, db.
        * rewrite Hf, no_err. done.
      + destruct (first_learn_ok (c_server s) Hs Hk) as (v' & Hv' & Hr). pose proof (recv_exp (c_server s) first) as He.
        rewrite Hv' in *. cbn in He. rewrite Hu0 in * by done. split; [|unfold KeepExp in *; cbn; by rewrite He].
        split; cbn; try done.
        * exists [], ub. by repeat split.
        * by exists da, db.
        * by rewrite Hf.
    - rewrite Hd. destruct db as [|p db]; cbn [fmap list_fmap].
      + split; [|done]. split; try done; [by exists ua, ub|by exists da, []].
      + inversion Hdb; subst. rewrite Hc, (recv_ready key) by (by left || done). split; [|done]. split; cbn; try done.
        * by exists ua, ub.
        * exists (da ++ [p]), db. repeat split; try done.
          -- rewrite Hds. by rewrite <- app_assoc.
          -- by apply app_got.
        * rewrite Hf, no_err. done.
  Qed.

  Lemma inv_run ops s : conn_run (conn_init cs ss rand filler) ops s -> Inv key first s /\ KeepExp s.
  Proof.
    intros H. remember (conn_init cs ss rand filler) as s0 eqn:E. induction H as [s|s0 ops s op Hrun IH Hop]; subst.
    - apply inv_init.
    - destruct IH as [H1 H2]; [done|]. by apply inv_step.
  Qed.

  Lemma prefix_deliverable o a b : deliverable o a `prefix_of` deliverable o (a ++ b).
  Proof. unfold deliverable. destruct o; [by exists b|]. rewrite filter_app. by eexists. Qed.

  Lemma obfuscation_transparent ops s :
    conn_run (conn_init cs ss rand filler) ops s ->
    let off := match cs with ObfDisabled => true | _ => false end in
    c_failed s = false /\
    c_up_got s `prefix_of` deliverable off (c_up_sent s) /\
    c_down_got s `prefix_of` deliverable off (c_down_sent s) /\
    (c_up s = [] -> c_up_got s = deliverable off (c_up_sent s)) /\
    (c_down s = [] -> c_down_got s = deliverable off (c_down_sent s)).
  Proof.
    intros H. destruct (inv_run _ _ H) as [[Hc Hs (ua & ub & Hus & Hug & Hu & Hu0 & Hub) (da & db & Hds & Hdg & Hd & Hdb) Hf] Hk].
    assert (match cs with ObfDisabled => true | _ => false end = off key) as -> by (inversion Hcompat; subst; done).
    cbn. split; [done|]. rewrite Hug, Hdg, Hus, Hds. split; [apply prefix_deliverable|]. split; [apply prefix_deliverable|]. split.
    - intros E. rewrite Hu in E. destruct ub as [|? ?]; [by rewrite app_nil_r|]. by destruct (c_started s).
    - intros E. rewrite Hd in E. destruct db; [by rewrite app_nil_r|done].
  Qed.
End Conn.
