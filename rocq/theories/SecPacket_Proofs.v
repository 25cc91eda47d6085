From Coq Require Import ZifyBool ZifyNat ZifyN.
From stdpp Require Import prelude.
From Verif Require Import Bytes SecPacket_Model SecPacket_Spec.
Local Open Scope N_scope.

Definition lens (ps : list (list N)) : list N := map (fun p => N.of_nat (length p)) ps.

Record rep (n : nat) (ps : list (list N)) (b : psb) : Prop := {
  rp_layout : layout b = lens ps ++ repeat 0 (n - length ps);
  rp_buf : buf b = concat ps;
  rp_n : (length ps <= n)%nat;
  rp_ne : Forall (fun p => p <> []) ps;
  rp_total : total (take (length ps - 1) ps) < 2 ^ 32
}.

Lemma lens_length ps : length (lens ps) = length ps. Proof. apply map_length. Qed.
Lemma repeat_lookup_lt {A} (x : A) n i : (i < n)%nat -> repeat x n !! i = Some x.
Proof. revert i; induction n as [|n IH]; intros [|i] H; cbn; try lia; try done. apply IH. lia. Qed.

Lemma sum32_app l x : sum32 (l ++ [x]) = (sum32 l + x) mod 2 ^ 32.
Proof. unfold sum32. by rewrite foldl_app. Qed.
Lemma total_app a b : total (a ++ b) = total a + total b.
Proof. unfold total. rewrite concat_app, app_length. lia. Qed.
Lemma total_lens ps : total ps = foldr N.add 0 (lens ps).
Proof. unfold total. induction ps as [|p ps IH]; [done|]. cbn [concat lens map foldr]. rewrite app_length, Nat2N.inj_add. unfold lens in IH. by rewrite IH. Qed.
Lemma total_one p : total [p] = N.of_nat (length p).
Proof. unfold total. cbn. by rewrite app_nil_r. Qed.

Lemma sum32_lens ps : total ps < 2 ^ 32 -> sum32 (lens ps) = total ps.
Proof.
  induction ps as [|p ps IH] using rev_ind; intros H; [done|].
  unfold lens in *. rewrite map_app. cbn [map]. rewrite sum32_app. rewrite total_app, total_one in *.
  rewrite IH by lia. apply N.mod_small. done.
Qed.

Lemma sum32_zeros l k : sum32 l < 2 ^ 32 -> sum32 (l ++ repeat 0 k) = sum32 l.
Proof.
  intros H. induction k as [|k IH]; [by rewrite app_nil_r|].
  replace (repeat 0 (S k)) with (repeat 0 k ++ [0]) by (clear; induction k; cbn; [done|]; by f_equal).
  rewrite app_assoc, sum32_app, IH, N.add_0_r. by apply N.mod_small.
Qed.

Lemma total_take ps i : total (take i ps) <= total ps.
Proof.
  rewrite <- (take_drop i ps) at 2. rewrite total_app. lia.
Qed.

Lemma lens_take ps i : lens (take i ps) = take i (lens ps).
Proof. unfold lens. by rewrite firstn_map. Qed.

Lemma take_repeat0 i k : exists j, take i (repeat 0 k) = repeat 0 j.
Proof. exists (i `min` k)%nat. revert k; induction i as [|i IH]; intros [|k]; cbn; try done. by rewrite IH. Qed.

Lemma rep_start n ps b i : rep n ps b -> (i < length ps)%nat \/ total ps < 2 ^ 32 ->
  sum32 (take i (layout b)) = total (take i ps).
Proof.
  intros [Hl _ _ _ Ht] Hi. rewrite Hl, firstn_app.
  destruct (take_repeat0 (i - length (lens ps)) (n - length ps)) as [j ->].
  assert (total (take i ps) < 2 ^ 32).
  { destruct Hi as [Hi|Hi]; [|pose proof (total_take ps i); lia].
    pose proof (total_take (take (length ps - 1) ps) i). rewrite take_take in H.
    replace (i `min` (length ps - 1))%nat with i in H by lia. lia. }
  rewrite sum32_zeros; rewrite <- lens_take, sum32_lens; lia.
Qed.

Lemma rep_layout_len n ps b : rep n ps b -> length (layout b) = n.
Proof. intros [Hl _ Hn _ _]. rewrite Hl, app_length, lens_length, repeat_length. lia. Qed.

Lemma rep_check n ps b idx : rep n ps b -> check_reserve b idx = ((idx =? length ps) && (idx <? n))%nat.
Proof.
  intros Hr. pose proof (rep_layout_len _ _ _ Hr) as HL. destruct Hr as [Hl _ Hn Hne _].
  unfold check_reserve. rewrite HL.
  assert (A1 : forallb (fun l => negb (l =? 0)) (lens ps) = true).
  { apply forallb_forall. intros x Hx. apply in_map_iff in Hx as (p & <- & Hp).
    apply elem_of_list_In in Hp. eapply Forall_forall in Hne; [|done]. destruct p; [done|]. cbn [length]. lia. }
  destruct (idx <? n)%nat eqn:Elt; [|by rewrite andb_false_r]. rewrite andb_true_r. cbn [andb].
  destruct (Nat.eqb_spec idx (length ps)) as [->|Hne2].
  - rewrite Hl. rewrite take_app_alt, drop_app_alt by (by rewrite lens_length). rewrite A1. cbn [andb].
    clear. induction (n - length ps)%nat; [done|]. cbn. done.
  - destruct (decide (idx < length ps)%nat) as [Hlt|Hge].
    + apply andb_false_iff. right. rewrite Hl, skipn_app.
      destruct (drop idx (lens ps)) as [|x l] eqn:Ed.
      { apply (f_equal length) in Ed. rewrite drop_length, lens_length in Ed. cbn in Ed. lia. }
      cbn [app forallb]. replace (x =? 0) with false; [done|].
      assert (In x (lens ps)) as Hx. { rewrite <- (take_drop idx (lens ps)), Ed. apply in_app_iff. right. by left. }
      rewrite forallb_forall in A1. specialize (A1 x Hx). by destruct (x =? 0).
    + apply andb_false_iff. left. rewrite Hl, firstn_app.
      destruct (idx - length (lens ps))%nat as [|d] eqn:Ei; [rewrite lens_length in Ei; lia|].
      destruct (n - length ps)%nat as [|e] eqn:En; [apply Nat.ltb_lt in Elt; lia|].
      rewrite forallb_app. cbn [repeat firstn forallb]. by rewrite andb_false_r.
Qed.

Lemma lens_insert ps idx w : lens (<[idx := w]> ps) = <[idx := N.of_nat (length w)]> (lens ps).
Proof. unfold lens. revert idx; induction ps as [|p ps IH]; intros [|i]; cbn; try done. f_equal. apply IH. Qed.

Lemma concat_split (ps : list (list N)) idx w : ps !! idx = Some w ->
  concat ps = concat (take idx ps) ++ w ++ concat (drop (S idx) ps).
Proof. intros H. rewrite <- (take_drop_middle ps idx w H) at 1. rewrite concat_app. done. Qed.

Lemma concat_insert (ps : list (list N)) idx w w' : ps !! idx = Some w ->
  concat (<[idx := w']> ps) = concat (take idx ps) ++ w' ++ concat (drop (S idx) ps).
Proof.
  intros H. assert (Hl : (idx < length ps)%nat) by (by eapply lookup_lt_Some).
  rewrite (concat_split (<[idx := w']> ps) idx w') by (by apply list_lookup_insert).
  by rewrite take_insert, drop_insert_gt by lia.
Qed.

Lemma rep_step n ps b o :
  rep n ps b -> fits ps o -> (forall i f, o = PWrite i f -> cb_ok f) ->
  exists b', model_step b o = Some (b', (spec_step n ps o).2) /\ rep n (spec_step n ps o).1 b'.
Proof.
  intros Hr Ht Hcb. pose proof (rep_layout_len _ _ _ Hr) as HL. destruct o as [idx len|idx f]; cbn [model_step spec_step] in *.
  - unfold reserve. rewrite (rep_check n ps b idx Hr).
    destruct ((idx =? length ps) && (idx <? n))%nat eqn:Ec; [|by exists b].
    apply andb_true_iff in Ec as [E1%Nat.eqb_eq E2%Nat.ltb_lt]. subst idx. eexists. split; [done|].
    pose proof Hr as [Hl Hb Hn Hne Htt]. cbn [fst].
    assert (Hins : <[length ps := len]> (layout b) = lens ps ++ len :: repeat 0 (n - length ps - 1)).
    { rewrite Hl. rewrite <- (lens_length ps) at 1.
      replace (length (lens ps)) with (length (lens ps) + 0)%nat by lia. rewrite insert_app_r.
      destruct (n - length ps)%nat as [|e] eqn:En; [lia|]. cbn [repeat]. rewrite Nat.sub_succ, Nat.sub_0_r. done. }
    destruct (N.eqb_spec len 0) as [->|Hlen].
    + split; cbn [layout buf]; try done.
      * rewrite Hins. f_equal. destruct (n - length ps)%nat as [|e] eqn:En; [lia|]. cbn [repeat]. do 2 f_equal. lia.
      * by rewrite app_nil_r.
    + split; cbn [layout buf].
      * rewrite Hins. unfold lens. rewrite map_app. cbn [map]. rewrite repeat_length, N2Nat.id, <- app_assoc. cbn [app].
        rewrite app_length. cbn [length]. do 2 f_equal. f_equal. lia.
      * rewrite concat_app, Hb. cbn. by rewrite app_nil_r.
      * rewrite app_length. cbn [length]. lia.
      * apply Forall_app. split; [done|]. constructor; [|done]. destruct (N.to_nat len) eqn:E; [lia|done].
      * rewrite app_length. cbn [length]. rewrite Nat.add_sub, take_app. exact Ht.
  - unfold with_window, get_range. rewrite HL, (rep_start _ _ _ _ Hr Ht). pose proof Hr as [Hl Hb Hn Hne Htt].
    destruct (ps !! idx) as [w|] eqn:Ew.
    + cbn [fst snd] in *. assert (Hi : (idx < length ps)%nat) by (by eapply lookup_lt_Some).
      assert (Hlk : layout b !! idx = Some (N.of_nat (length w))).
      { rewrite Hl. apply lookup_app_l_Some. unfold lens. rewrite list_lookup_fmap, Ew. done. }
      rewrite Hlk.
      assert (Hend : (if (idx + 1 =? n)%nat then N.of_nat (length (buf b)) else total (take idx ps) + N.of_nat (length w)) = total (take idx ps) + N.of_nat (length w)).
      { destruct (Nat.eqb_spec (idx + 1) n) as [En|]; [|done]. rewrite Hb, (concat_split ps idx w Ew).
        rewrite drop_ge by lia. cbn [concat]. rewrite app_nil_r, app_length. unfold total. lia. }
      rewrite Hend. rewrite Hb. rewrite (concat_split ps idx w Ew).
      set (pre := concat (take idx ps)). set (post := concat (drop (S idx) ps)).
      assert (Hpre : total (take idx ps) = N.of_nat (length pre)) by done. rewrite Hpre.
      replace ((N.of_nat (length pre) <=? N.of_nat (length pre) + N.of_nat (length w)) && (N.of_nat (length pre) + N.of_nat (length w) <=? N.of_nat (length (pre ++ w ++ post)))) with true.
      2:{ symmetry. apply andb_true_iff. rewrite !app_length. split; apply N.leb_le; lia. }
      replace (N.to_nat (N.of_nat (length pre) + N.of_nat (length w))) with (length pre + length w)%nat by lia.
      rewrite Nat2N.id. replace (length pre + length w - length pre)%nat with (length w) by lia.
      rewrite drop_app, take_app, take_app.
      replace (drop (length pre + length w) (pre ++ w ++ post)) with post by (rewrite <- drop_drop, drop_app, drop_app; done).
      destruct (f w) as [w' ok] eqn:Ef. cbn [fst snd].
      eexists. split; [done|].
      assert (Hw' : length w' = length w). { pose proof (Hcb idx f eq_refl w) as H. by rewrite Ef in H. }
      assert (Hll : lens (<[idx := w']> ps) = lens ps).
      { rewrite lens_insert, Hw'. apply list_insert_id. unfold lens. rewrite list_lookup_fmap, Ew. done. }
      split; cbn [layout buf].
      * by rewrite Hll, insert_length.
      * by rewrite (concat_insert ps idx w w' Ew).
      * by rewrite insert_length.
      * apply Forall_insert; [done|]. eapply Forall_lookup in Hne; [|done]. destruct w, w'; done.
      * rewrite insert_length. rewrite total_lens in *. rewrite lens_take, Hll, <- lens_take. done.
    + cbn [fst snd] in *. apply lookup_ge_None in Ew.
      destruct (Nat.ltb_spec idx n) as [Hlt|Hge].
      * assert (Hlk : layout b !! idx = Some 0).
        { rewrite Hl, lookup_app_r by (rewrite lens_length; lia). apply repeat_lookup_lt. rewrite lens_length. lia. }
        rewrite Hlk. rewrite take_ge by lia.
        assert (Hend : (if (idx + 1 =? n)%nat then N.of_nat (length (buf b)) else total ps + 0) = total ps).
        { destruct (idx + 1 =? n)%nat; [by rewrite Hb|lia]. }
        rewrite Hend. rewrite Hb. unfold total. rewrite !N.leb_refl. cbn [andb].
        rewrite Nat2N.id, Nat.sub_diag. rewrite firstn_all, skipn_all. rewrite take_0.
        pose proof (Hcb idx f eq_refl []) as H. destruct (f []) as [w' ok]. cbn [fst length] in H.
        destruct w'; [|done]. cbn [fst snd app]. eexists. split; [done|]. rewrite app_nil_r.
        split; cbn [layout buf]; done.
      * assert (Hlk : layout b !! idx = None) by (apply lookup_ge_None; lia).
        rewrite Hlk. exists b. done.
Qed.

Lemma rep_new n : (0 < n)%nat -> exists b, psb_new n = Some b /\ rep n [] b.
Proof.
  intros H. destruct n as [|n]; [lia|]. eexists. split; [done|]. split; cbn [layout buf lens map app length concat]; try done; try lia.
Qed.

(** Extraction undoes the layout. *)
Lemma extract_ok pay ext : N.of_nat (length pay) < 2 ^ 32 ->
  extract_payload (be_enc 4 (N.of_nat (length pay)) ++ pay ++ ext) = Some (pay, ext).
Proof.
  intros H. unfold extract_payload.
  assert (HL : length (be_enc 4 (N.of_nat (length pay))) = 4%nat) by apply be_enc_length.
  assert (H4 : (length (be_enc 4 (N.of_nat (length pay)) ++ pay ++ ext) <? 4)%nat = false).
  { apply Nat.ltb_ge. rewrite app_length, HL. lia. }
  rewrite H4, take_app_alt, drop_app_alt by done. rewrite be_dec_enc by (change (pow256 4) with (2 ^ 32); lia).
  replace (N.of_nat (length (pay ++ ext)) <? N.of_nat (length pay)) with false by (symmetry; apply N.ltb_ge; rewrite app_length; lia).
  rewrite Nat2N.id. by rewrite take_app, drop_app.
Qed.

Definition parts (n : N) (p : phase) : list (list N) :=
  match p with
  | Ph0 => [zeros n]
  | Ph1 pay => [zeros n; be_enc 4 (N.of_nat (length pay)) ++ pay]
  | Ph2 hdr pay => [hdr; be_enc 4 (N.of_nat (length pay)) ++ pay]
  end.
Definition tagof (p : phase) (b : psb) : smp :=
  match p with Ph0 => PayloadNext b | Ph1 _ => HeaderNext b | Ph2 _ _ => FinalPayloadExt b end.

Record brep (n elen : N) (p : phase) (m : smp) : Prop := {
  br_rep : exists b, m = tagof p b /\ rep 3 (parts n p) b;
  br_n : n < 2 ^ 32;
  br_fit : elen = 0 \/ total (parts n p) < 2 ^ 32;
  br_hdr : match p with Ph2 hdr _ => length hdr = N.to_nat n | _ => True end
}.

Lemma zeros_length n : length (zeros n) = N.to_nat n. Proof. apply repeat_length. Qed.
Lemma zeros_add a b : zeros (a + b) = zeros a ++ zeros b.
Proof. unfold zeros. rewrite N2Nat.inj_add. apply repeat_app. Qed.

Lemma brep_call n elen p m c :
  brep n elen p m -> call_ok c -> call_fits n elen c ->
  exists m', md_call m c = Some (m', (sp_call n p c).2) /\ brep n elen (sp_call n p c).1 m'.
Proof.
  intros [(b & -> & Hr) Hn32 Hf Hh] Hok Hfit.
  destruct c as [len f|f]; destruct p as [|pay|hdr pay]; cbn [md_call sp_call tagof write_payload write_header fst snd call_ok call_fits] in *.
  2,3,4,6: eexists; (split; [done|]); split; [eexists; split; [done|done]|done|done|done].
  - destruct (N.leb_spec (2 ^ 32) (len + 4)) as [Hbig|Hsmall].
    { cbn [fst snd]. eexists. split; [done|]. split; [eexists; split; [done|done]|done|done|done]. }
    cbn [fst snd].
    assert (Hn : total [zeros n] = n) by (rewrite total_one, zeros_length; lia).
    destruct (rep_step 3 [zeros n] b (PReserve 1 (len + 4)) Hr) as (b1 & E1 & R1).
    { cbn [fits]. lia. }
    { done. }
    cbn [spec_step length Nat.eqb Nat.ltb Nat.leb andb] in E1, R1. destruct (len + 4 =? 0) eqn:E0; [lia|]. cbn [fst snd app model_step] in E1, R1.
    destruct (reserve b 1 (len + 4)) as [b1'|]; [|done]. injection E1 as ->.
    assert (Hcb : cb_ok (prefix_cb len f)).
    { intros w. unfold prefix_cb. destruct (Nat.ltb_spec (length w) 4); [done|].
      pose proof (Hok (drop 4 w)) as H'. destruct (f (drop 4 w)) as [r ok] eqn:Ef. cbn [fst] in *.
      rewrite app_length, be_enc_length, H', drop_length. lia. }
    assert (Hpf : prefix_cb len f (zeros (len + 4)) = (be_enc 4 len ++ (f (zeros len)).1, (f (zeros len)).2)).
    { unfold prefix_cb. rewrite zeros_length. destruct (Nat.ltb_spec (N.to_nat (len + 4)) 4); [lia|].
      rewrite N.add_comm, zeros_add. change (drop 4 (zeros 4 ++ zeros len)) with (zeros len). by destruct (f (zeros len)). }
    assert (Hpay : length (f (zeros len)).1 = N.to_nat len) by (rewrite Hok; apply zeros_length).
    assert (Htot : total [zeros n; be_enc 4 len ++ (f (zeros len)).1] = n + len + 4).
    { unfold total. cbn [concat]. rewrite !app_length, be_enc_length, Hpay, zeros_length. cbn [length]. lia. }
    destruct (rep_step 3 [zeros n; zeros (len + 4)] b1 (PWrite 1 (prefix_cb len f)) R1) as (b2 & E2 & R2).
    { left. cbn [length]. lia. }
    { by intros ? ? [= <- <-]. }
    cbn [model_step] in E2. rewrite E2. cbn [spec_step lookup list_lookup snd] in *. rewrite Hpf in *. cbn [fst snd insert list_insert] in *.
    eexists. split; [done|]. split; [|done|cbn [parts]; rewrite Hpay, N2Nat.id, Htot; lia|done].
    eexists. split; [done|]. cbn [parts]. by rewrite Hpay, N2Nat.id.
  - assert (Hz : length (f (zeros n)).1 = N.to_nat n) by (rewrite Hok; apply zeros_length).
    destruct (rep_step 3 _ b (PWrite 0 f) Hr) as (b2 & E2 & R2).
    { left. cbn [length parts]. lia. }
    { by intros ? ? [= <- <-]. }
    cbn [model_step] in E2. rewrite E2. cbn [parts spec_step lookup list_lookup snd fst insert list_insert] in *.
    eexists. split; [done|]. split; [eexists; split; done|done| |done].
    cbn [parts]. unfold total in *. cbn [concat] in *. rewrite !app_length in *. rewrite zeros_length in Hf. rewrite Hz. lia.
Qed.

Lemma brep_run n elen cs p m :
  brep n elen p m -> Forall call_ok cs -> Forall (call_fits n elen) cs ->
  exists m', md_run m cs = Some (m', (sp_run n p cs).2) /\ brep n elen (sp_run n p cs).1 m'.
Proof.
  revert p m; induction cs as [|c cs IH]; intros p m Hb H1 H2; cbn [md_run sp_run].
  - by exists m.
  - inversion H1; inversion H2; subst. destruct (brep_call n elen p m c) as (m1 & E1 & B1); try done.
    rewrite E1. destruct (sp_call n p c) as [p1 r]. cbn [fst snd] in *.
    destruct (IH p1 m1 B1) as (m2 & E2 & B2); try done. rewrite E2.
    destruct (sp_run n p1 cs) as [p2 rs]. cbn [fst snd] in *. by exists m2.
Qed.

Lemma brep_finish n elen p m f : brep n elen p m -> cb_ok f -> write_ext m elen f = Some (sp_finish p elen f).
Proof.
  intros [(b & -> & Hr) Hn32 Hf Hh] Hok. destruct p as [|pay|hdr pay]; cbn [tagof write_ext sp_finish]; try done.
  destruct (N.eqb_spec elen 0) as [->|He].
  - rewrite (rp_buf _ _ _ Hr). cbn [parts concat]. unfold frame. by rewrite !app_nil_r.
  - destruct Hf as [Hf|Hf]; [done|].
    destruct (rep_step 3 _ b (PReserve 2 elen) Hr) as (b1 & E1 & R1).
    { exact Hf. }
    { done. }
    cbn [parts spec_step length Nat.eqb Nat.ltb Nat.leb andb model_step] in E1, R1. destruct (elen =? 0) eqn:E0; [lia|]. cbn [fst snd app] in E1, R1.
    destruct (reserve b 2 elen) as [b1'|]; [|done]. injection E1 as ->. fold (zeros elen) in R1.
    destruct (rep_step 3 _ b1 (PWrite 2 f) R1) as (b2 & E2 & R2).
    { left. cbn [length]. lia. }
    { by intros ? ? [= <- <-]. }
    cbn [model_step spec_step lookup list_lookup fst snd insert list_insert] in E2, R2. rewrite E2.
    destruct (f (zeros elen)) as [w ok]. cbn [fst snd] in *. destruct ok; [|done].
    rewrite (rp_buf _ _ _ R2). cbn [concat]. unfold frame. by rewrite !app_nil_r, !app_assoc.
Qed.

Lemma brep_new n elen : 0 < n < 2 ^ 32 -> exists m, smp_new n = Some m /\ brep n elen Ph0 m.
Proof.
  intros Hn. destruct (rep_new 3 ltac:(lia)) as (b & E & R). unfold smp_new. rewrite E.
  destruct (rep_step 3 [] b (PReserve 0 n) R) as (b1 & E1 & R1).
  { cbn [fits]. unfold total. cbn. lia. }
  { done. }
  cbn [spec_step length Nat.eqb Nat.ltb Nat.leb andb model_step] in E1, R1. destruct (n =? 0) eqn:E0; [lia|]. cbn [fst snd app] in E1, R1.
  destruct (reserve b 0 n) as [b1'|]; [|done]. injection E1 as ->.
  eexists. split; [done|]. split; [|lia|right; cbn [parts]; rewrite total_one, zeros_length; lia|done]. exists b1. done.
Qed.

(** If header, length field and payload make exactly 4 GiB, the extension's window starts at 0. *)
Lemma overflow_window n hdr pay m elen f :
  brep n 0 (Ph2 hdr pay) m -> n + N.of_nat (length pay) + 4 = 2 ^ 32 -> 0 < elen -> cb_ok f ->
  write_ext m elen f =
    Some (let whole := frame hdr pay (zeros elen) in if (f whole).2 then Some (f whole).1 else None).
Proof.
  intros [(b & -> & Hr) Hn32 _ Hh] Hsum He Hok. cbn [tagof write_ext].
  destruct (N.eqb_spec elen 0) as [->|_]; [lia|].
  unfold reserve. rewrite (rep_check _ _ _ 2 Hr). cbn [parts length Nat.eqb Nat.ltb Nat.leb andb].
  pose proof Hr as [Hl Hb _ _ _]. cbn [parts lens map length Nat.sub repeat app] in Hl.
  unfold with_window, get_range. cbn [layout buf]. rewrite Hl. cbn [insert list_insert lookup list_lookup length Nat.add Nat.eqb take].
  assert (Hs : sum32 [N.of_nat (length hdr); N.of_nat (length (be_enc 4 (N.of_nat (length pay)) ++ pay))] = 0).
  { unfold sum32. cbn [foldl]. rewrite app_length, be_enc_length, Hh. rewrite N.add_0_l, (N.mod_small (N.of_nat (N.to_nat n))) by lia.
    replace (N.of_nat (N.to_nat n) + N.of_nat (4 + length pay)) with (2 ^ 32) by lia. by rewrite N.mod_same. }
  rewrite Hs. replace (0 <=? _) with true by (symmetry; apply N.leb_le; lia). rewrite N.leb_refl. cbn [andb].
  rewrite Nat2N.id. change (N.to_nat 0) with 0%nat. rewrite drop_0, Nat.sub_0_r, firstn_all, skipn_all, take_0.
  replace (buf b ++ repeat 0 (N.to_nat elen)) with (frame hdr pay (zeros elen)).
  2:{ rewrite Hb. cbn [parts concat]. rewrite app_nil_r, <- !app_assoc. done. }
  destruct (f _) as [w ok]. cbn [fst snd buf app]. rewrite app_nil_r. by destruct ok.
Qed.
