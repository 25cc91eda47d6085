From Coq Require Import ZifyBool ZifyNat ZifyN.
From stdpp Require Import prelude gmap.
From Verif Require Import Splitter_Model Splitter_Spec.
Local Open Scope nat_scope.

(** ** Lists *)
Lemma write_at_length s d buf : s + length d <= length buf -> length (write_at s d buf) = length buf.
Proof. intros. unfold write_at. rewrite !app_length, take_length, drop_length. lia. Qed.

Lemma write_at_lookup s d buf j :
  s + length d <= length buf ->
  write_at s d buf !! j = if bool_decide (s <= j < s + length d) then d !! (j - s) else buf !! j.
Proof.
  intros Hl. unfold write_at. case_bool_decide as Hj.
  - rewrite lookup_app_r by (rewrite take_length; lia). rewrite take_length.
    rewrite Nat.min_l by lia. rewrite lookup_app_l by lia. done.
  - destruct (decide (j < s)).
    + rewrite lookup_app_l by (rewrite take_length; lia). by rewrite lookup_take by lia.
    + rewrite lookup_app_r by (rewrite take_length; lia). rewrite take_length, Nat.min_l by lia.
      rewrite lookup_app_r by lia. rewrite lookup_drop. f_equal. lia.
Qed.

Lemma filter_add (B : gset nat) (f : nat -> nat) (l : list nat) x :
  NoDup l -> x ∈ l -> f x ∉ B -> (forall y, y ∈ l -> f y = f x -> y = x) ->
  filter (fun i => f i ∈ ({[f x]} ∪ B)) l ≡ₚ x :: filter (fun i => f i ∈ B) l.
Proof.
  intros Hnd Hx HB Hinj. apply NoDup_Permutation.
  - by apply NoDup_filter.
  - constructor; [|by apply NoDup_filter]. rewrite elem_of_list_filter. naive_solver.
  - intros y. rewrite elem_of_cons, !elem_of_list_filter, elem_of_union, elem_of_singleton.
    naive_solver.
Qed.

Lemma filter_other (B : gset nat) (f : nat -> nat) (l : list nat) s :
  (forall y, y ∈ l -> f y <> s) ->
  filter (fun i => f i ∈ ({[s]} ∪ B)) l = filter (fun i => f i ∈ B) l.
Proof.
  induction l as [|y l IH]; intros H; [done|].
  assert (Hy : f y <> s) by (apply H; left).
  rewrite !filter_cons, IH by (intros z Hz; apply H; by right).
  destruct (decide (f y ∈ {[s]} ∪ B)), (decide (f y ∈ B)); set_solver.
Qed.

Lemma filter_full {A} (Q : A -> Prop) {HQd : forall x, Decision (Q x)} (l : list A) :
  length (filter Q l) = length l <-> Forall Q l.
Proof.
  split.
  - induction l as [|x l IH]; [constructor|]. rewrite filter_cons. case_decide; cbn; intros Hl.
    + constructor; [done|]. apply IH. lia.
    + pose proof (filter_length Q l). lia.
  - intros HF. f_equal. induction HF as [|x l Hx HF IH]; [done|]. by rewrite filter_cons_True, IH.
Qed.

Definition slen (Q L i : nat) : nat := Nat.min Q (L - i * Q).

Lemma sum_slen Q L k : sum_list (slen Q L <$> seq 0 k) = Nat.min L (k * Q).
Proof.
  induction k as [|k IH]; [cbn; lia|].
  rewrite seq_S, fmap_app.
  assert (Happ : forall a b : list nat, sum_list (a ++ b) = sum_list a + sum_list b).
  { intros a b. induction a; cbn; lia. }
  rewrite Happ, IH. cbn. unfold slen. lia.
Qed.

Lemma sum_list_perm (a b : list nat) : a ≡ₚ b -> sum_list a = sum_list b.
Proof. induction 1; cbn; lia. Qed.

Lemma length_slice Q i (l : list N) : length (take Q (drop (i * Q) l)) = slen Q (length l) i.
Proof. rewrite take_length, drop_length. done. Qed.

Lemma nchunks_spec m len : 0 < m -> len <= nchunks m len * m /\ (0 < len -> (nchunks m len - 1) * m < len)
  /\ (len = 0 -> nchunks m len = 0).
Proof.
  intros Hm. unfold nchunks, div_ceil.
  assert (HM : N.of_nat len = (N.of_nat m * (N.of_nat len / N.of_nat m) + N.of_nat len mod N.of_nat m)%N)
    by (apply N.div_mod; lia).
  assert (HL : (N.of_nat len mod N.of_nat m < N.of_nat m)%N) by (apply N.mod_lt; lia).
  set (q := (N.of_nat len / N.of_nat m)%N) in *. set (r := (N.of_nat len mod N.of_nat m)%N) in *.
  clearbody q r.
  destruct (N.eqb_spec r 0); repeat split; nia.
Qed.

Lemma nchunks_unique m len k : 0 < m -> (k - 1) * m < len <= k * m -> nchunks m len = k.
Proof.
  intros Hm Hk. destruct (nchunks_spec m len Hm) as (H1 & H2 & H3).
  assert (0 < len) by (destruct len; [by destruct (Nat.nlt_0_r _ (proj1 Hk))|lia]).
  specialize (H2 ltac:(lia)).
  set (c := nchunks m len) in *. clearbody c.
  assert (c - 1 < k) by (apply (Nat.mul_lt_mono_pos_r m); lia).
  assert (k - 1 < c) by (apply (Nat.mul_lt_mono_pos_r m); lia). 
  destruct c; [lia|]. lia.
Qed.

Lemma coords_div0 K w i : i < K -> (w * K + i) / K = w /\ (w * K + i) mod K = i.
Proof.
  intros Hi. split.
  - rewrite Nat.div_add_l by lia. rewrite Nat.div_small by lia. lia.
  - rewrite Nat.add_comm, Nat.mod_add by lia. by apply Nat.mod_small.
Qed.

(** ** The receiver fed with the packets of one sender *)
Section rx.
  Context (K P M n : nat) (cs ps : nat -> list N) (pt : list N) (dec : list N -> option (list N)).
  Context (HK : 0 < K) (HP : 0 < P) (Hn : 0 < n).
  Context (Hfull : forall w, S w < n -> wave_fits K P (length (cs w))).
  Context (Hlast : 0 < length (cs (n - 1)) <= K * P).
  Context (Hdec : forall w, w < n -> dec (cs w) = Some (ps w)).
  Context (Hps : forall w, w < n -> ps w = take M (drop (w * M) pt)).
  Context (Hpt : (n - 1) * M < length pt <= n * M).

  Let cnt (w : nat) : nat := nchunks P (length (cs w)).
  Let needed : nat := (n - 1) * K + cnt (n - 1).
  Let payload (s : nat) : list N := take P (drop (s mod K * P) (cs (s / K))).
  Let blen (w : nat) : nat := if bool_decide (w = n - 1) then length (cs w) else K * P.
  Let lastp : nat := length (cs (n - 1)) - (cnt (n - 1) - 1) * P.

  Lemma cnt_full w : S w < n -> cnt w = K.
  Proof. intros Hw. apply nchunks_unique; [done|]. by apply Hfull. Qed.

  Lemma cnt_last : 0 < cnt (n - 1) <= K.
  Proof.
    destruct (nchunks_spec P (length (cs (n - 1))) HP) as (H1 & H2 & _).
    unfold cnt. specialize (H2 ltac:(lia)). nia.
  Qed.

  Lemma cnt_bound w : w < n -> 0 < cnt w <= K.
  Proof.
    intros Hw. destruct (decide (S w < n)).
    - rewrite cnt_full by done. lia.
    - replace w with (n - 1) by lia. apply cnt_last.
  Qed.

  Lemma seq_coords s : s < needed -> s / K < n /\ s mod K < cnt (s / K).
  Proof.
    intros Hs. pose proof cnt_last as Hc.
    assert (Hd : s = K * (s / K) + s mod K) by (apply Nat.div_mod; lia).
    assert (Hm : s mod K < K) by (apply Nat.mod_upper_bound; lia).
    set (q := s / K) in *. set (m := s mod K) in *. clearbody q m. unfold needed in Hs.
    assert (q < n) by nia. split; [done|].
    destruct (decide (S q < n)).
    - rewrite cnt_full by done. done.
    - replace q with (n - 1) in * by lia. nia.
  Qed.

  Lemma coords_seq w i : w < n -> i < cnt w -> w * K + i < needed.
  Proof.
    intros Hw Hi. pose proof (cnt_bound w Hw). unfold needed.
    destruct (decide (S w < n)).
    - nia.
    - replace w with (n - 1) in * by lia. lia.
  Qed.

  Lemma coords_div w i : i < K -> (w * K + i) / K = w /\ (w * K + i) mod K = i.
  Proof. apply coords_div0. Qed.

  Definition got (B : gset nat) (w : nat) : list nat := filter (fun i => w * K + i ∈ B) (seq 0 (cnt w)).
  Definition cplt (B : gset nat) (w : nat) : Prop := Forall (fun i => w * K + i ∈ B) (seq 0 (cnt w)).
  Global Instance cplt_dec B w : Decision (cplt B w).
  Proof. unfold cplt. apply _. Defined.

  Lemma got_cplt B w : length (got B w) = cnt w <-> cplt B w.
  Proof.
    unfold got, cplt. rewrite <- filter_full. by rewrite seq_length.
  Qed.

  Record wave_inv (B : gset nat) (w : nat) (ws : wave_store) : Prop := {
    wi_recv : ws_recv ws = length (got B w);
    wi_count : ws_count ws = cnt w;
    wi_written : ws_written ws = sum_list (slen P (length (cs w)) <$> got B w);
    wi_len : length (ws_buf ws) = blen w;
    wi_buf : forall i j, i ∈ got B w -> i * P <= j < i * P + slen P (length (cs w)) i ->
                    ws_buf ws !! j = cs w !! j }.

  Record inv (B : gset nat) (r : receiver) : Prop := {
    i_K : r_K r = K; i_P : r_P r = P; i_M : r_M r = M; i_needed : r_needed r = needed;
    i_last : r_last r = lastp;
    i_seen : r_seen r = B;
    i_B : forall s, s ∈ B -> s < needed;
    i_waves : forall w, if bool_decide (w < n /\ ~ cplt B w)
                        then exists ws, r_waves r !! w = Some ws /\ wave_inv B w ws
                        else r_waves r !! w = None;
    i_slab_len : length (r_slab r) = length pt;
    i_slab : forall w j, w < n -> cplt B w -> w * M <= j < w * M + length (ps w) -> r_slab r !! j = pt !! j;
    i_written : r_written r = sum_list (slen M (length pt) <$> filter (cplt B) (seq 0 n)) }.

  Lemma blen_ge w i : w < n -> i < cnt w -> i * P + slen P (length (cs w)) i <= blen w.
  Proof.
    intros Hw Hi. unfold slen, blen. pose proof (cnt_bound w Hw).
    destruct (nchunks_spec P (length (cs w)) HP) as (H1 & H2 & H3). change (nchunks P (length (cs w))) with (cnt w) in *.
    case_bool_decide; subst.
    - specialize (H2 ltac:(lia)). nia.
    - pose proof (Hfull w ltac:(lia)) as Hf. unfold wave_fits in Hf.
      assert (Hle : S i * P <= K * P) by (apply Nat.mul_le_mono_r; lia). rewrite Nat.mul_succ_l in Hle.
      clear - Hle. set (a := i * P) in *. set (b := K * P) in *. clearbody a b. lia.
  Qed.

  Lemma ps_len w : w < n -> length (ps w) = slen M (length pt) w.
  Proof. intros Hw. rewrite Hps by done. apply length_slice. Qed.

  Lemma all_cplt_slab B r : inv B r -> (forall w, w < n -> cplt B w) -> r_slab r = pt.
  Proof.
    intros I Hall. apply list_eq_same_length with (n := length pt); [done|apply I|].
    intros j x y Hj Hx Hy.
    assert (0 < M) by nia.
    assert (Hq : j / M < n) by (apply Nat.div_lt_upper_bound; lia).
    rewrite (i_slab _ _ I (j / M) j) in Hx; [congruence|done|by apply Hall|].
    rewrite ps_len by done. unfold slen.
    pose proof (Nat.div_mod j M ltac:(lia)) as Hd. pose proof (Nat.mod_upper_bound j M ltac:(lia)) as Hm.
    set (q := j / M) in *. set (m := j mod M) in *. clearbody q m. nia.
  Qed.

  (** What arrival of a new packet does to the sets. *)
  Lemma got_add B w i :
    w < n -> i < cnt w -> w * K + i ∉ B -> got ({[w * K + i]} ∪ B) w ≡ₚ i :: got B w.
  Proof.
    intros Hw Hi HB. unfold got.
    apply (filter_add B (fun i => w * K + i) (seq 0 (cnt w)) i).
    - apply NoDup_seq.
    - apply elem_of_seq. lia.
    - done.
    - intros y _ Hy. lia.
  Qed.

  Lemma got_other B w w' i :
    w' < n -> i < cnt w' -> w < n -> w <> w' -> got ({[w' * K + i]} ∪ B) w = got B w.
  Proof.
    intros Hw' Hi Hw Hne. apply filter_other. intros y Hy Heq. apply elem_of_seq in Hy.
    pose proof (cnt_bound w Hw). pose proof (cnt_bound w' Hw').
    destruct (coords_div w y) as [H1 _]; [lia|]. destruct (coords_div w' i) as [H2 _]; [lia|].
    apply Hne. rewrite <- H1, <- H2. by rewrite Heq.
  Qed.

  Lemma cplt_other B w w' i :
    w' < n -> i < cnt w' -> w < n -> w <> w' -> cplt ({[w' * K + i]} ∪ B) w <-> cplt B w.
  Proof. intros. rewrite <- !got_cplt. by rewrite got_other. Qed.

  Lemma not_cplt B w i : i < cnt w -> w * K + i ∉ B -> ~ cplt B w.
  Proof.
    intros Hi HB Hc. apply HB. unfold cplt in Hc. rewrite Forall_forall in Hc. apply Hc.
    apply elem_of_seq. lia.
  Qed.

  (** All waves complete means all packets arrived. *)
  Lemma all_cplt B : (forall w, w < n -> cplt B w) <-> (set_seq 0 needed : gset nat) ⊆ B.
  Proof.
    split.
    - intros H s Hs. apply elem_of_set_seq in Hs.
      destruct (seq_coords s) as [Hw Hi]; [lia|]. specialize (H _ Hw). unfold cplt in H.
      rewrite Forall_forall in H. specialize (H (s mod K)).
      rewrite (Nat.mul_comm (s / K)), <- Nat.div_mod in H by lia.
      apply H. apply elem_of_seq. lia.
    - intros H w Hw. unfold cplt. apply Forall_forall. intros i Hi. apply elem_of_seq in Hi.
      apply H. apply elem_of_set_seq. pose proof (coords_seq w i Hw). lia.
  Qed.

  Lemma one_cplt B w :
    w < n -> cplt B w <-> set_Forall (fun x => x / K = w -> x ∈ B) (set_seq 0 needed : gset nat).
  Proof.
    intros Hw. split.
    - intros H s Hs Heq. apply elem_of_set_seq in Hs.
      destruct (seq_coords s) as [_ Hi]; [lia|]. unfold cplt in H.
      rewrite Forall_forall in H. specialize (H (s mod K)). subst w.
      rewrite (Nat.mul_comm (s / K)), <- Nat.div_mod in H by lia.
      apply H. apply elem_of_seq. lia.
    - intros H. unfold cplt. apply Forall_forall. intros i Hi. apply elem_of_seq in Hi.
      pose proof (cnt_bound w Hw).
      apply H; [apply elem_of_set_seq; pose proof (coords_seq w i Hw); lia|].
      apply coords_div. lia.
  Qed.

  (** The buffer once all packets of the wave are in. *)
  Lemma complete_buf B w ws : w < n -> cplt B w -> wave_inv B w ws -> take (ws_written ws) (ws_buf ws) = cs w.
  Proof.
    intros Hw Hc [Hr Hcn Hwr Hlen Hbuf].
    assert (Hg : got B w = seq 0 (cnt w)).
    { unfold got. clear -Hc. unfold cplt in Hc.
      induction Hc as [|x l Hx Hc IH]; [done|]. by rewrite filter_cons_True, IH. }
    destruct (nchunks_spec P (length (cs w)) HP) as (H1 & H2 & H3). change (nchunks P (length (cs w))) with (cnt w) in *.
    pose proof (cnt_bound w Hw) as Hcb.
    assert (Hwl : ws_written ws = length (cs w)).
    { rewrite Hwr, Hg, sum_slen. lia. }
    assert (Hble : length (cs w) <= blen w).
    { unfold blen. case_bool_decide; [lia|]. pose proof (Hfull w ltac:(lia)) as Hf. unfold wave_fits in Hf. lia. }
    apply list_eq_same_length with (n := length (cs w)); [done|rewrite take_length; lia|].
    intros j x y Hj Hx Hy. rewrite lookup_take in Hx by lia.
    rewrite (Hbuf (j / P) j) in Hx; [congruence|..].
    - rewrite Hg. apply elem_of_seq. split; [apply Nat.le_0_l|]. cbn. apply Nat.div_lt_upper_bound; lia.
    - unfold slen. pose proof (Nat.div_mod j P ltac:(lia)) as Hd.
      pose proof (Nat.mod_upper_bound j P ltac:(lia)) as Hm.
      set (q := j / P) in *. set (m := j mod P) in *. clearbody q m. rewrite Hd, (Nat.mul_comm P q). rewrite Hd, (Nat.mul_comm P q) in Hj.
      clear - Hm Hj. set (a := q * P) in *. clearbody a. lia.
  Qed.

  Lemma seen_step B r s :
    inv B r -> s < needed ->
    exists r', on_packet dec r s (s / K) (payload s) = (spec_status K (set_seq 0 needed) B s, r')
               /\ inv ({[s]} ∪ B) r' /\ r_empty r' = r_empty r.
  Proof.
    intros I Hs. unfold on_packet, spec_status. rewrite (i_needed _ _ I).
    destruct (Nat.ltb_spec s needed) as [_|]; [|lia]. cbn [negb].
    rewrite (i_seen _ _ I). case_bool_decide as HB.
    { exists r. split_and!; [done| |done]. replace ({[s]} ∪ B) with B by set_solver. done. }
    destruct (seq_coords s Hs) as [Hw Hi].
    pose proof (Nat.div_mod s K ltac:(lia)) as Hdm.
    set (w := s / K) in *. set (i := s mod K) in *.
    assert (Hsw : s = w * K + i) by lia. clearbody w i. 
    assert (Hpay : payload s = take P (drop (i * P) (cs w))).
    { unfold payload. pose proof (cnt_bound w Hw). destruct (coords_div w i) as [E1 E2]; [lia|].
      rewrite Hsw, E1, E2. done. }
    assert (Hpl : length (payload s) = slen P (length (cs w)) i) by (rewrite Hpay; apply length_slice).
    set (B' := {[s]} ∪ B).
    cbn [set_seen r_waves].
    assert (Hnc : ~ cplt B w) by (apply (not_cplt B w i Hi); congruence).
    pose proof (i_waves _ _ I w) as HI. rewrite bool_decide_eq_true_2 in HI by done.
    destruct HI as (ws & Hws & WI). rewrite Hws.
    pose proof (wi_len _ _ _ WI) as Hbl. pose proof (blen_ge w i Hw Hi) as Hbg.
    pose proof (cnt_bound w Hw) as Hcb.
    destruct (nchunks_spec P (length (cs w)) HP) as (C1 & C2 & C3). change (nchunks P (length (cs w))) with (cnt w) in *.
    (* the insertion range *)
    assert (HR : exists e, insertion_range (set_seen r B') s (length (ws_buf ws)) = Some (i * P, e)
               /\ i * P + slen P (length (cs w)) i <= e <= length (ws_buf ws)).
    { unfold insertion_range. cbn [set_seen r_needed r_last r_P r_K].
      rewrite (i_needed _ _ I), (i_last _ _ I), (i_P _ _ I), (i_K _ _ I).
      case_bool_decide as Hl.
      - assert (w = n - 1 /\ i = cnt (n - 1) - 1) as [-> ->].
        { pose proof cnt_last. unfold needed in Hl, Hs.
          destruct (decide (S w < n)); [|assert (w = n - 1) by lia; subst w; split; lia].
          assert (i < K) by lia. exfalso. assert (w * K + i < (n - 1) * K) by
            (assert (Hle : S w * K <= (n - 1) * K) by (apply Nat.mul_le_mono_r; lia); rewrite Nat.mul_succ_l in Hle; lia). lia. }
        assert (Hb : blen (n - 1) = length (cs (n - 1))) by (unfold blen; by rewrite bool_decide_eq_true_2).
        rewrite Hbl, Hb. unfold lastp. unfold slen.
        specialize (C2 ltac:(lia)).
        assert (Hz : exists z, (cnt (n - 1) - 1) * P = z) by eauto. destruct Hz as [z Hz]. rewrite Hz in *.
        destruct (Nat.leb_spec (length (cs (n - 1)) - z) (length (cs (n - 1)))); [|lia].
        eexists. split; [f_equal; f_equal; lia|]. lia.
      - assert (Hmod : s mod K = i) by (rewrite Hsw; apply coords_div; lia).
        rewrite Hmod. eexists. split; [f_equal; f_equal; lia|].
        rewrite Hbl. unfold slen. split; [lia|].
        unfold blen. case_bool_decide as Hwn.
        + subst w. assert (i < cnt (n - 1) - 1).
          { unfold needed in Hl. lia. }
          specialize (C2 ltac:(lia)). nia.
        + assert (Hle : S i * P <= K * P) by (apply Nat.mul_le_mono_r; lia). rewrite Nat.mul_succ_l in Hle.
          rewrite ?(Nat.mul_comm P i). clear - Hle. set (a := i * P) in *. set (b := K * P) in *. clearbody a b. lia. }
    destruct HR as (e & -> & He1 & He2).
    assert (Hcb1 : check_bounds (length (ws_buf ws)) (i * P) e = true).
    { unfold check_bounds. destruct (Nat.leb_spec (i * P) (length (ws_buf ws))); [|done].
      destruct (Nat.ltb_spec (length (ws_buf ws)) e); [lia|done]. }
    rewrite Hcb1. cbn [negb].
    destruct (Nat.ltb_spec (length (ws_buf ws)) e); [lia|].
    assert (Hcb2 : check_bounds (e - i * P) 0 (length (payload s)) = true).
    { unfold check_bounds. rewrite Hpl. destruct (Nat.ltb_spec (e - i * P) (slen P (length (cs w)) i)); [lia|].
      by rewrite andb_false_r. }
    rewrite Hcb2. cbn [negb ws_recv ws_count].
    set (ws' := mk_ws (S (ws_recv ws)) (ws_count ws) (ws_written ws + length (payload s))
                      (write_at (i * P) (payload s) (ws_buf ws))).
    assert (Hwb : i * P + length (payload s) <= length (ws_buf ws)) by lia.
    assert (Hgp : got B' w ≡ₚ i :: got B w) by (unfold B'; rewrite Hsw; apply got_add; [done..|congruence]).
    assert (WI' : wave_inv B' w ws').
    { constructor.
      - cbn. rewrite Hgp. cbn. f_equal. apply WI.
      - apply WI.
      - cbn [ws' ws_written]. rewrite (wi_written _ _ _ WI), Hpl.
        rewrite (sum_list_perm (slen P (length (cs w)) <$> got B' w) (slen P (length (cs w)) <$> i :: got B w))
          by (by rewrite Hgp).
        cbn. lia.
      - cbn [ws' ws_buf]. rewrite write_at_length by done. done.
      - intros i' j Hi' Hj. rewrite Hgp in Hi'. cbn [ws' ws_buf]. rewrite write_at_lookup by done.
        rewrite Hpl. case_bool_decide as Hin.
        + rewrite Hpay. rewrite lookup_take by (unfold slen in Hin; lia). rewrite lookup_drop. f_equal. lia.
        + apply elem_of_cons in Hi' as [->|Hi']; [done|]. by apply (wi_buf _ _ _ WI i'). }
    assert (HB' : forall s', s' ∈ B' -> s' < needed).
    { intros s' [Hs'%elem_of_singleton|Hs']%elem_of_union; [lia|]. by apply (i_B _ _ I). }
    assert (Hoth : forall w', w' < n -> w' <> w -> cplt B' w' <-> cplt B w').
    { intros w' Hw' Hne. unfold B'. rewrite Hsw. by apply cplt_other. }
    assert (Hgo : forall w', w' < n -> w' <> w -> got B' w' = got B w').
    { intros w' Hw' Hne. unfold B'. rewrite Hsw. by apply got_other. }
    destruct (decide (cplt B' w)) as [Hcp|Hncp].
    - (* the wave is complete *)
      assert (Hrc : S (ws_recv ws) =? ws_count ws = true).
      { apply Nat.eqb_eq. change (ws_recv ws' = ws_count ws'). rewrite (wi_recv _ _ _ WI'), (wi_count _ _ _ WI').
        by apply got_cplt. }
      rewrite Hrc. unfold finish_wave. 
      rewrite (complete_buf B' w ws' Hw Hcp WI'), (Hdec w Hw).
      cbn [set_waves set_seen r_waves r_slab r_M r_written].
      rewrite (i_M _ _ I), (i_slab_len _ _ I).
      assert (Hfit : w * M + length (ps w) <= length pt).
      { rewrite ps_len by done. unfold slen.
        assert (w * M <= (n - 1) * M) by (apply Nat.mul_le_mono_r; lia). lia. }
      destruct (Nat.ltb_spec (length pt) (w * M + length (ps w))); [lia|].
      set (r2 := set_slab (set_waves (set_seen r B') (delete w (r_waves r))) 
                   (write_at (w * M) (ps w) (r_slab r)) (r_written r + length (ps w))).
      assert (I2 : inv B' r2).
      { assert (Hwl : w * M + length (ps w) <= length (r_slab r)) by (rewrite (i_slab_len _ _ I); done).
        constructor; try (by apply I); cbn [r2 set_slab set_waves set_seen r_waves r_slab r_written r_seen]; [done|done| | | |].
        - intros w'. destruct (decide (w' = w)) as [->|Hne].
          + rewrite bool_decide_eq_false_2 by naive_solver. by rewrite lookup_delete.
          + rewrite lookup_delete_ne by done. pose proof (i_waves _ _ I w') as HI'.
            destruct (decide (w' < n)) as [Hw'|Hw'].
            * rewrite (bool_decide_ext _ (w' < n /\ ~ cplt B w')) by (rewrite Hoth by done; done).
              case_bool_decide; [|done]. destruct HI' as (ws0 & Hws0 & WI0). exists ws0. split; [done|].
              destruct WI0 as [A1 A2 A3 A4 A5].
              constructor; rewrite ?Hgo by done; done.
            * rewrite bool_decide_eq_false_2 by naive_solver.
              rewrite bool_decide_eq_false_2 in HI' by naive_solver. done.
        - rewrite write_at_length by done. apply I.
        - intros w' j Hw' Hc' Hj. rewrite write_at_lookup by done. case_bool_decide as Hin.
          + rewrite (Hps w Hw). rewrite lookup_take by (rewrite ps_len in Hin by done; unfold slen in Hin; lia).
            rewrite lookup_drop. f_equal. lia.
          + destruct (decide (w' = w)) as [->|Hne]; [done|].
            apply (i_slab _ _ I w' j Hw'); [by apply Hoth|done].
        - rewrite (i_written _ _ I), ps_len by done.
          rewrite (sum_list_perm (slen M (length pt) <$> filter (cplt B') (seq 0 n))
                                 (slen M (length pt) <$> w :: filter (cplt B) (seq 0 n))).
          { cbn. lia. }
          f_equiv. apply NoDup_Permutation.
          + apply NoDup_filter, NoDup_seq.
          + constructor; [|apply NoDup_filter, NoDup_seq]. rewrite elem_of_list_filter. naive_solver.
          + intros w'. rewrite elem_of_cons, !elem_of_list_filter, elem_of_seq.
            destruct (decide (w' = w)) as [->|Hne]; [naive_solver lia|].
            destruct (decide (w' < n)) as [Hw'|]; [rewrite Hoth by done; naive_solver|naive_solver lia]. }
      assert (Hemp : delete w (r_waves r) = ∅ <-> (forall w', w' < n -> cplt B' w')).
      { pose proof (i_waves _ _ I2) as HW. cbn [r2 set_slab set_waves set_seen r_waves] in HW. split.
        - intros He w' Hw'. specialize (HW w'). rewrite He, lookup_empty in HW.
          case_bool_decide as Hb; [by destruct HW as (? & ? & ?)|].
          destruct (decide (cplt B' w')); [done|naive_solver].
        - intros Hall. apply map_empty. intros w'. specialize (HW w').
          rewrite bool_decide_eq_false_2 in HW by naive_solver. done. }
      fold B'. 
      destruct (decide (set_seq 0 needed ⊆ B')) as [Hall|Hnall].
      + rewrite (bool_decide_eq_true_2 (_ ⊆ _)) by done.
        rewrite (bool_decide_eq_true_2 (_ = ∅)) by (apply Hemp; by apply all_cplt).
        exists r2. split_and!; [|done|done].
        rewrite (all_cplt_slab _ _ I2) by (by apply all_cplt).
        assert (Hwt : r_written r2 = length pt).
        { rewrite (i_written _ _ I2).
          rewrite (sum_list_perm _ (slen M (length pt) <$> seq 0 n)).
          { rewrite sum_slen. lia. }
          f_equiv. apply NoDup_Permutation; [apply NoDup_filter, NoDup_seq|apply NoDup_seq|].
          intros w'. rewrite elem_of_list_filter, elem_of_seq. pose proof (proj2 (all_cplt B') Hall w'). naive_solver lia. }
        rewrite Hwt, Nat.eqb_refl. done.
      + rewrite (bool_decide_eq_false_2 (_ = ∅)) by (intros Hx; apply Hnall, all_cplt, Hemp; exact Hx).
        rewrite (bool_decide_eq_false_2 (_ ⊆ _)) by done.
        rewrite bool_decide_eq_true_2 by (by apply one_cplt).
        exists r2. done.
    - (* more packets needed *)
      assert (Hrc : S (ws_recv ws) =? ws_count ws = false).
      { apply Nat.eqb_neq. change (ws_recv ws' <> ws_count ws'). rewrite (wi_recv _ _ _ WI'), (wi_count _ _ _ WI').
        by rewrite got_cplt. }
      rewrite Hrc.
      rewrite (bool_decide_eq_false_2 (_ ⊆ _)) by (intros Hall; apply Hncp; by apply all_cplt).
      rewrite bool_decide_eq_false_2 by (rewrite <- one_cplt by done; done).
      eexists. split; [reflexivity|]. split; [|done].
      constructor; try (by apply I); cbn [set_waves set_seen r_waves r_slab r_written r_seen]; [done|done| | |].
      + intros w'. destruct (decide (w' = w)) as [->|Hne].
        * rewrite bool_decide_eq_true_2 by done. exists ws'. rewrite lookup_insert. done.
        * rewrite lookup_insert_ne by done. pose proof (i_waves _ _ I w') as HI'.
          destruct (decide (w' < n)) as [Hw'|Hw'].
          -- rewrite (bool_decide_ext _ (w' < n /\ ~ cplt B w')) by (fold B'; rewrite Hoth by done; done).
             case_bool_decide; [|done]. destruct HI' as (ws0 & Hws0 & WI0). exists ws0. split; [done|].
             destruct WI0 as [A1 A2 A3 A4 A5]. fold B'.
             constructor; rewrite ?Hgo by done; done.
          -- rewrite bool_decide_eq_false_2 by naive_solver.
             rewrite bool_decide_eq_false_2 in HI' by naive_solver. done.
      + intros w' j Hw' Hc' Hj. destruct (decide (w' = w)) as [->|Hne]; [done|].
        apply (i_slab _ _ I w' j Hw'); [by apply Hoth|done].
      + rewrite (i_written _ _ I). f_equal. f_equal.
        assert (Hext : forall l, Forall (fun w' => w' < n) l -> filter (cplt B) l = filter (cplt ({[s]} ∪ B)) l).
        { induction 1 as [|x l Hx Hl IH]; [done|]. rewrite !filter_cons, IH. fold B'.
          destruct (decide (x = w)) as [->|Hne].
          - destruct (decide (cplt B w)), (decide (cplt B' w)); done.
          - pose proof (Hoth x Hx Hne). destruct (decide (cplt B x)), (decide (cplt B' x)); naive_solver. }
        apply Hext. apply Forall_forall. intros x Hx. apply elem_of_seq in Hx. lia.
  Qed.

  Lemma run_spec B r (l : list nat) :
    inv B r -> Forall (fun s => s < needed) l ->
    exists r', run dec r ((fun s => (s, s / K, payload s)) <$> l)
               = (spec_statuses K (set_seq 0 needed) B l, r')
               /\ inv (list_to_set l ∪ B) r' /\ r_empty r' = r_empty r.
  Proof.
    intros I Hl. revert B r I. induction Hl as [|s l Hs Hl IH]; intros B r I.
    - exists r. cbn. split_and!; [done| |done]. by replace (∅ ∪ B) with B by set_solver.
    - destruct (seen_step B r s I Hs) as (r1 & E1 & I1 & Ee). cbn [fmap list_fmap run].
      rewrite E1. destruct (IH _ _ I1) as (r2 & E2 & I2 & Ee2). rewrite E2.
      exists r2. split_and!; [done| |congruence].
      cbn. by replace ({[s]} ∪ list_to_set l ∪ B) with (list_to_set l ∪ ({[s]} ∪ B)) by set_solver.
  Qed.
End rx.
