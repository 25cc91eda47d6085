(** C157-C160: the two-way channel. *)
From Coq Require Import Lia.
From stdpp Require Import prelude.
From Verif Require Import BiChannel_Model.
Local Open Scope N_scope.

(** the values in what is under way, and those before the first word of closing *)
Definition vals (l : list bpkt) : list N := omap (λ p, match p with Val x => Some x | _ => None end) l.
Fixpoint before (l : list bpkt) : option (list N) :=
  match l with
  | [] => None
  | Val x :: rest => (x ::.) <$> before rest
  | _ :: _ => Some []
  end.
Lemma vals_app l l' : vals (l ++ l') = vals l ++ vals l'.
Proof. unfold vals. apply omap_app. Qed.
Lemma before_val l x : before (l ++ [Val x]) = before l.
Proof. induction l as [|[y| |] l IH]; cbn; [done| |done|done]. by rewrite IH. Qed.
Lemma before_ctl l p : (∀ x, p ≠ Val x) → before (l ++ [p]) = Some (default (vals l) (before l)).
Proof.
  intros Hp. induction l as [|[y| |] l IH]; cbn.
  - destruct p; [by destruct (Hp x)|done|done].
  - rewrite IH. cbn. by destruct (before l).
  - done.
  - done.
Qed.
Lemma set_at_eq {A} (f : bool → A) b v : set_at f b v b = v.
Proof. unfold set_at. by rewrite Bool.eqb_reflx. Qed.
Lemma set_at_ne {A} (f : bool → A) b c v : c ≠ b → set_at f b v c = f c.
Proof. unfold set_at. destruct b, c; done. Qed.

(** what holds of the way from [negb b] to [b], where [s] was sent while the sender had its receiving half *)
Definition way (s : list N) (w : bworld) (b : bool) : Prop :=
  let e := bw_end w b in let a := bw_end w (negb b) in
  be_got e `prefix_of` be_sent a ∧ s `prefix_of` be_sent a ∧
  (be_rx e = true → be_task e = TNone) ∧ (be_rx a = true → be_task a = TNone) ∧
  (be_rx e = true → be_halt e = false → be_sent a = be_got e ++ vals (bw_wire w b) ∧
     match before (bw_wire w b) with Some p => s `prefix_of` be_got e ++ p | None => True end) ∧
  (be_rx e = true → be_halt e = true → s `prefix_of` be_got e) ∧
  (be_rx a = true → be_rx e = true → be_halt e = false ∧ before (bw_wire w b) = None).

Lemma way_step s w b e : way s w b → way s (bstep w e) b.
Proof.
  unfold way. intros (H1 & H2 & H3 & H3' & H4 & H5 & H6).
  assert (b ≠ negb b) as Hb by (by destruct b). assert (negb b ≠ b) as Hb' by (by destruct b).
  destruct e as [c x|c|c|c]; cbn [bstep].
  - (* Send *)
    unfold do_send, send_ok. destruct (be_halt (bw_end w c)) eqn:Eh; cbn [negb]; [done|]. unfold put, set_wire, set_end. cbn [bw_end bw_wire].
    destruct (decide (c = b)) as [->|Hc].
    + rewrite !set_at_eq, (set_at_ne _ b (negb b)), (set_at_ne _ (negb b) b) by done. cbn [be_rx be_halt be_task be_sent be_got]. rewrite Eh in *. done.
    + assert (c = negb b) as -> by (by destruct b, c). rewrite !negb_involutive.
      rewrite !set_at_eq, (set_at_ne _ (negb b) b) by done. cbn [be_rx be_halt be_task be_sent be_got].
      split; [by apply prefix_app_r|]. split; [by apply prefix_app_r|]. split; [done|]. split; [done|].
      split; [|split; [done|]].
      * intros Hr Hh. destruct (H4 Hr Hh) as [E1 E2]. rewrite vals_app, before_val, E1, <- app_assoc. done.
      * intros Ha Hr. rewrite before_val. by apply H6.
  - (* Recv *)
    unfold do_recv. destruct (be_rx (bw_end w c) && negb (be_halt (bw_end w c))) eqn:Eg; [|done].
    apply andb_true_iff in Eg as [Er Eh]. apply negb_true_iff in Eh.
    destruct (decide (c = b)) as [->|Hc].
    + specialize (H4 Er Eh) as [E1 E2]. destruct (bw_wire w b) as [|p rest] eqn:Ew; [rewrite !Ew; done|].
      destruct p as [x| |]; unfold set_wire, set_end; cbn [bw_end bw_wire];
        rewrite !set_at_eq, !(set_at_ne _ b (negb b)) by done; cbn [be_rx be_halt be_task be_sent be_got]; cbn in E1, E2, H6.
      * rewrite Eh, Er in *. split; [rewrite E1; exists (vals rest); by rewrite <- app_assoc|]. split; [done|]. split; [done|]. split; [done|].
        split; [|split; [done|]].
        -- intros _ _. rewrite <- app_assoc. split; [done|]. destruct (before rest); [|done]. by rewrite <- app_assoc.
        -- intros Ha _. destruct (H6 Ha eq_refl) as [_ Hn]. split; [done|]. by destruct (before rest).
      * rewrite app_nil_r in E2. split; [done|]. split; [done|]. split; [done|]. split; [done|].
        split; [done|]. split; [done|]. intros Ha Hr. by destruct (H6 Ha Hr).
      * rewrite app_nil_r in E2. split; [done|]. split; [done|]. split; [done|]. split; [done|].
        split; [done|]. split; [done|]. intros Ha Hr. by destruct (H6 Ha Hr).
    + assert (c = negb b) as -> by (by destruct b, c).
      destruct (bw_wire w (negb b)) as [|[x| |] rest]; [done|..]; unfold set_wire, set_end; cbn [bw_end bw_wire];
        rewrite !set_at_eq, !(set_at_ne _ (negb b) b) by done; cbn [be_rx be_halt be_task be_sent be_got]; done.
  - (* DropRecv *)
    unfold do_drop. destruct (be_rx (bw_end w c)) eqn:Er; [|done]. unfold set_end. cbn [bw_end bw_wire].
    destruct (decide (c = b)) as [->|Hc].
    + rewrite !set_at_eq, !(set_at_ne _ b (negb b)) by done. cbn [be_rx be_halt be_task be_sent be_got]. done.
    + assert (c = negb b) as -> by (by destruct b, c).
      rewrite !set_at_eq, !(set_at_ne _ (negb b) b) by done. cbn [be_rx be_halt be_task be_sent be_got]. done.
  - (* RunTask *)
    unfold do_task. destruct (decide (c = b)) as [->|Hc].
    + destruct (be_rx (bw_end w b)) eqn:Er; [by rewrite (H3 eq_refl), Er|].
      destruct (be_task (bw_end w b)) eqn:Et; [rewrite Er; done| | | |rewrite Er; done].
      * destruct (be_halt (bw_end w b)); unfold put, set_wire, set_end; cbn [bw_end bw_wire];
          rewrite !set_at_eq, (set_at_ne _ b (negb b)) by done; cbn [be_rx be_halt be_task be_sent be_got]; done.
      * unfold set_end; cbn [bw_end bw_wire]; rewrite !set_at_eq, (set_at_ne _ b (negb b)) by done; cbn [be_rx be_halt be_task be_sent be_got]; done.
      * destruct (bw_wire w b) as [|[x| |] rest]; unfold set_wire, set_end; cbn [bw_end bw_wire];
          rewrite ?set_at_eq, ?(set_at_ne _ b (negb b)) by done; cbn [be_rx be_halt be_task be_sent be_got]; rewrite ?Er; done.
    + assert (c = negb b) as -> by (by destruct b, c).
      destruct (be_rx (bw_end w (negb b))) eqn:Er; [by rewrite (H3' eq_refl), Er|].
      destruct (be_task (bw_end w (negb b))) eqn:Et; [rewrite Er; done| | | |rewrite Er; done].
      * destruct (be_halt (bw_end w (negb b))); unfold put, set_wire, set_end; cbn [bw_end bw_wire]; rewrite !negb_involutive;
          rewrite !set_at_eq, !(set_at_ne _ (negb b) b) by done; cbn [be_rx be_halt be_task be_sent be_got].
        all: split; [done|]; (split; [done|]); (split; [done|]); (split; [done|]); (split; [|done]).
        all: intros Hr Hh; destruct (H4 Hr Hh) as [E1 E2]; rewrite vals_app, before_ctl by done; cbn; rewrite app_nil_r; (split; [done|]).
        all: destruct (before (bw_wire w b)); cbn; [done|by rewrite <- E1].
      * unfold set_end; cbn [bw_end bw_wire]; rewrite !set_at_eq, !(set_at_ne _ (negb b) b) by done; cbn [be_rx be_halt be_task be_sent be_got]; done.
      * destruct (bw_wire w (negb b)) as [|[x| |] rest]; unfold set_wire, set_end; cbn [bw_end bw_wire];
          rewrite ?set_at_eq, ?(set_at_ne _ (negb b) b) by done; cbn [be_rx be_halt be_task be_sent be_got]; rewrite ?Er; done.
Qed.
Lemma way_run s w b es : way s w b → way s (brun w es) b.
Proof. revert w. induction es as [|e es IH]; intros w H; [done|]. cbn. apply IH. by apply way_step. Qed.
Lemma way_init b : way [] bworld_init b.
Proof. unfold way. cbn. repeat split; done. Qed.

(** C157: an end gets the values the other has sent, in order, none twice and none left out. *)
Theorem C157_in_order es b :
  be_got (bw_end (brun bworld_init es) b) `prefix_of` be_sent (bw_end (brun bworld_init es) (negb b)).
Proof. apply (way_run [] bworld_init b es (way_init b)). Qed.

Definition both_ways : list bevent := [Send true 1; Send false 9; Send true 2; Recv true; Recv false; DropRecv false; Send true 3; RunTask false].
Example C157_example :
  (be_got (bw_end (brun bworld_init both_ways) true), be_got (bw_end (brun bworld_init both_ways) false),
   be_sent (bw_end (brun bworld_init both_ways) true)) = ([9], [1], [1; 2; 3]).
Proof. reflexivity. Qed.

(** C158: a value for which send_item returned Ok is received by an end that reads on as long as it can.  False: the flag is set
    after the word of closing is sent; what is sent in between is lost.  (The sender has dropped its receiving half.) *)
Definition read_all (w : bworld) (b : bool) : Prop :=
  be_rx (bw_end w b) = true ∧ (bw_wire w b = [] ∨ be_halt (bw_end w b) = true).
Theorem C158_refuted :
  ¬ (∀ es b, read_all (brun bworld_init es) b →
       be_got (bw_end (brun bworld_init es) b) = be_sent (bw_end (brun bworld_init es) (negb b))).
Proof.
  intros H. specialize (H [DropRecv false; RunTask false; Send false 5; Recv true] true).
  cbn in H. discriminate H. split; [done|by right].
Qed.
(** What holds: what was sent while the sender had its receiving half is received. *)
Theorem C158_partial es es' b :
  be_rx (bw_end (brun bworld_init es) (negb b)) = true → read_all (brun bworld_init (es ++ es')) b →
  be_sent (bw_end (brun bworld_init es) (negb b)) `prefix_of` be_got (bw_end (brun bworld_init (es ++ es')) b).
Proof.
  intros Ha [Hr Hq]. set (w := brun bworld_init es) in *.
  assert (brun bworld_init (es ++ es') = brun w es') as E by (unfold brun; by rewrite foldl_app). rewrite E in *. clear E.
  pose proof (way_run [] bworld_init b es (way_init b)) as Hw. fold w in Hw.
  destruct (be_rx (bw_end w b)) eqn:Hrb.
  - assert (way (be_sent (bw_end w (negb b))) w b) as Hs.
    { destruct Hw as (H1 & H2 & H3 & H3' & H4 & H5 & H6). destruct (H6 Ha Hrb) as [Hh Hn].
      split; [done|]. split; [done|]. split; [done|]. split; [done|]. split; [|split; [|done]].
      - intros _ _. destruct (H4 Hrb Hh) as [E1 _]. by rewrite Hn.
      - intros _ Hh'. congruence. }
    destruct (way_run _ _ _ es' Hs) as (H1 & H2 & H3 & H3' & H4 & H5 & H6).
    destruct (be_halt (bw_end (brun w es') b)) eqn:Eh; [by apply H5|].
    destruct Hq as [Hq|Hq]; [|done]. destruct (H4 Hr eq_refl) as [E1 _]. rewrite Hq in E1. cbn in E1. rewrite app_nil_r in E1. by rewrite <- E1.
  - exfalso. clear -Hr Hrb. revert Hrb Hr. generalize w. induction es' as [|e es' IH]; intros v Hrb Hr; cbn in Hr; [congruence|].
    apply (IH (bstep v e)); [|done]. clear IH Hr. destruct e as [c x|c|c|c]; cbn [bstep].
    + unfold do_send. destruct (send_ok v c); [|done]. unfold put, set_wire, set_end. cbn. unfold set_at. destruct (Bool.eqb b c) eqn:E; [|done].
      apply Bool.eqb_prop in E as ->. done.
    + unfold do_recv. destruct (_ && _) eqn:Eg; [|done]. destruct (bw_wire v c) as [|[x| |] rest]; [done|..]; cbn; unfold set_at;
        (destruct (Bool.eqb b c) eqn:E; [|done]); apply Bool.eqb_prop in E as ->; done.
    + unfold do_drop. destruct (be_rx (bw_end v c)); [|done]. cbn. unfold set_at. by destruct (Bool.eqb b c).
    + unfold do_task. destruct (be_task (bw_end v c)); [done|destruct (be_halt (bw_end v c))| |destruct (bw_wire v c) as [|[x| |] rest]|done]; cbn; try done; unfold set_at;
        (destruct (Bool.eqb b c) eqn:E; [|done]); apply Bool.eqb_prop in E as ->; done.
Qed.
Definition talk : list bevent :=
  [Send true 1; Send false 7; Send true 2; DropRecv true; Send true 3; Recv false; RunTask true; Recv false; Recv false; Recv false].
Example C158_example :
  (be_got (bw_end (brun bworld_init talk) false), be_halt (bw_end (brun bworld_init talk) false)) = ([1; 2; 3], true) ∧
  read_all (brun bworld_init talk) false.
Proof. split; [reflexivity|]. split; [done|by right]. Qed.

(** C159: the halves may be used independently: the sending half goes on sending when the receiving half is dropped.  False. *)
Theorem C159_refuted : ¬ (∀ es b, be_rx (bw_end (brun bworld_init es) (negb b)) = true → send_ok (brun bworld_init es) b = true).
Proof. intros H. specialize (H [DropRecv true; RunTask true; RunTask true] true eq_refl). discriminate H. Qed.
(** What holds: as long as neither receiving half is dropped, both ends can send. *)
Theorem C159_partial es b :
  be_rx (bw_end (brun bworld_init es) b) = true → be_rx (bw_end (brun bworld_init es) (negb b)) = true →
  send_ok (brun bworld_init es) b = true.
Proof.
  intros Hr Ha. destruct (way_run [] bworld_init b es (way_init b)) as (_ & _ & _ & _ & _ & _ & H6).
  unfold send_ok. by destruct (H6 Ha Hr) as [-> _].
Qed.

Example C159_example :
  send_ok (brun bworld_init [Send true 1; Recv false; Send false 2]) true = true ∧
  send_ok (brun bworld_init [DropRecv true; RunTask true; Recv false]) false = false.
Proof. done. Qed.

(** C160: when both ends are dropped, the tasks that close the channel come to their end.  False: if the second end is dropped before it
    has read the first's Halt, both wait for ever for an answer to their own. *)
Definition waits (w : bworld) (b : bool) : Prop :=
  be_rx (bw_end w b) = false ∧ be_halt (bw_end w b) = true ∧ be_task (bw_end w b) = TWaits ∧ HaltVerified ∉ bw_wire w b.
Lemma waits_step w e : waits w true → waits w false → waits (bstep w e) true ∧ waits (bstep w e) false.
Proof.
  intros Ht Hf. assert (∀ c, waits w c) as Hw by (by intros []). clear Ht Hf.
  assert (∀ b, waits (bstep w e) b); [|done]. intros b. destruct e as [c x|c|c|c]; cbn [bstep].
  - unfold do_send, send_ok. destruct (Hw c) as (_ & -> & _). by apply Hw.
  - unfold do_recv. destruct (Hw c) as (-> & _). by apply Hw.
  - unfold do_drop. destruct (Hw c) as (-> & _). by apply Hw.
  - unfold do_task. destruct (Hw c) as (R & H & -> & N). destruct (bw_wire w c) as [|p rest] eqn:E; [by apply Hw|].
    assert (waits (set_wire w c rest) b) as Hn.
    { destruct (Hw b) as (R1 & R2 & R3 & R4). unfold waits, set_wire. cbn [bw_end bw_wire]. split; [done|]. split; [done|]. split; [done|].
      unfold set_at. destruct (Bool.eqb b c) eqn:Eb; [|done]. intros Hin. apply N. by apply elem_of_list_further. }
    destruct p; [done|done|]. destruct N. apply elem_of_list_here.
Qed.
Definition both_dropped : list bevent := [DropRecv true; RunTask true; RunTask true; DropRecv false; RunTask false; RunTask false].
Theorem C160_refuted :
  be_rx (bw_end (brun bworld_init both_dropped) true) = false ∧ be_rx (bw_end (brun bworld_init both_dropped) false) = false ∧
  ∀ es b, be_task (bw_end (brun bworld_init (both_dropped ++ es)) b) = TWaits.
Proof.
  split; [done|]. split; [done|]. intros es. unfold brun. rewrite foldl_app. fold (brun bworld_init both_dropped).
  fold (brun (brun bworld_init both_dropped) es).
  assert (waits (brun bworld_init both_dropped) true ∧ waits (brun bworld_init both_dropped) false) as H.
  { split; (split; [done|]; split; [done|]; split; [done|]; cbn; rewrite elem_of_list_singleton; done). }
  revert H. generalize (brun bworld_init both_dropped). induction es as [|e es IH]; intros w [Ht Hf] b; cbn.
  - destruct b; [apply Ht|apply Hf].
  - apply IH. by apply waits_step.
Qed.
(** What holds: they do if the second end has read the Halt of the first before it is dropped. *)
Lemma drain w b n l :
  be_task (bw_end w b) = TWaits → bw_wire w b = l ++ [HaltVerified] → n = length (l ++ [HaltVerified]) →
  (∃ k, (k ≤ n)%nat ∧ be_task (bw_end (brun w (replicate k (RunTask b))) b) = TDone ∧
     bw_end (brun w (replicate k (RunTask b))) (negb b) = bw_end w (negb b)).
Proof.
  revert w n. induction l as [|p l IH]; intros w n Ht Hw Hn.
  - exists 1%nat. split; [by rewrite Hn|]. cbn. unfold do_task. rewrite Ht, Hw. cbn. rewrite set_at_eq, set_at_ne by (by destruct b). done.
  - assert (p = HaltVerified ∨ p ≠ HaltVerified) as [->|Hp] by (destruct p; by auto).
    + exists 1%nat. split; [rewrite Hn; cbn; lia|]. cbn. unfold do_task. rewrite Ht, Hw. cbn. rewrite set_at_eq, set_at_ne by (by destruct b). done.
    + destruct (IH (do_task w b) (length (l ++ [HaltVerified]))) as (k & Hk & H1 & H2).
      * unfold do_task. rewrite Ht, Hw. cbn. by destruct p.
      * unfold do_task. rewrite Ht, Hw. cbn. destruct p; [by cbn; rewrite set_at_eq|by cbn; rewrite set_at_eq|done].
      * done.
      * exists (S k). split; [rewrite Hn; cbn; lia|]. cbn. split; [done|]. unfold brun in H2. rewrite H2.
        unfold do_task. rewrite Ht, Hw. cbn. by destruct p.
Qed.
Theorem C160_partial w b :
  be_task (bw_end w b) = TWaits → be_halt (bw_end w (negb b)) = true → be_task (bw_end w (negb b)) = TStarted →
  ∃ k, (k ≤ length (bw_wire w b) + 1)%nat ∧
    ∀ c, be_task (bw_end (brun w (RunTask (negb b) :: replicate k (RunTask b))) c) = TDone.
Proof.
  intros Ht Hh Hs. cbn.
  assert (do_task w (negb b) = put (set_end w (negb b) (mk_bend (be_rx (bw_end w (negb b))) true TDone (be_sent (bw_end w (negb b))) (be_got (bw_end w (negb b)))))
    (negb b) HaltVerified) as -> by (unfold do_task; by rewrite Hs, Hh).
  set (w1 := put _ _ _).
  assert (bw_end w1 b = bw_end w b) as E1 by (unfold w1; cbn; apply set_at_ne; by destruct b).
  assert (be_task (bw_end w1 (negb b)) = TDone) as E2 by (unfold w1; cbn; by rewrite set_at_eq).
  assert (bw_wire w1 b = bw_wire w b ++ [HaltVerified]) as E3 by (unfold w1; cbn; rewrite negb_involutive; by rewrite set_at_eq).
  destruct (drain w1 b (length (bw_wire w b ++ [HaltVerified])) (bw_wire w b)) as (k & Hk & H1 & H2); [by rewrite E1|done|reflexivity|].
  exists k. rewrite app_length in Hk. split; [done|]. intros c. destruct (decide (c = b)) as [->|Hc]; [done|].
  assert (c = negb b) as -> by (by destruct b, c). unfold brun in H2. by rewrite H2.
Qed.
(** In terms of what the ends do: the second reads the Halt and is then dropped. *)
Theorem C160_read_partial w b rest :
  be_task (bw_end w b) = TWaits → be_rx (bw_end w (negb b)) = true → be_halt (bw_end w (negb b)) = false →
  bw_wire w (negb b) = Halt :: rest →
  ∃ k, (k ≤ length (bw_wire w b) + 1)%nat ∧
    ∀ c, be_task (bw_end (brun w ([Recv (negb b); DropRecv (negb b); RunTask (negb b)] ++ replicate k (RunTask b))) c) = TDone.
Proof.
  intros Ht Hr Hh Hw. assert (b ≠ negb b) as Hb by (by destruct b).
  assert (bstep w (Recv (negb b)) = set_wire (set_end w (negb b) (mk_bend true true (be_task (bw_end w (negb b))) (be_sent (bw_end w (negb b)))
    (be_got (bw_end w (negb b))))) (negb b) rest) as E1 by (cbn [bstep]; unfold do_recv; rewrite Hr, Hh, Hw; done).
  assert (bstep (bstep w (Recv (negb b))) (DropRecv (negb b)) = set_end (bstep w (Recv (negb b))) (negb b)
    (mk_bend false true TStarted (be_sent (bw_end w (negb b))) (be_got (bw_end w (negb b))))) as E2.
  { rewrite E1. cbn [bstep]. unfold do_drop. cbn. by rewrite !set_at_eq. }
  set (w2 := bstep (bstep w (Recv (negb b))) (DropRecv (negb b))) in *.
  assert (bw_wire w2 b = bw_wire w b) as Hw2 by (rewrite E2, E1; cbn; by rewrite set_at_ne).
  destruct (C160_partial w2 b) as (k & Hk & H).
  - rewrite E2, E1. cbn. by rewrite !set_at_ne.
  - rewrite E2. cbn. by rewrite set_at_eq.
  - rewrite E2. cbn. by rewrite set_at_eq.
  - exists k. rewrite <- Hw2. split; [exact Hk|]. intros c. exact (H c).
Qed.
Definition closed : list bevent := [Send false 4; DropRecv true; RunTask true; RunTask true; Recv false; DropRecv false].
Example C160_example :
  be_task (bw_end (brun bworld_init closed) true) = TWaits ∧ be_halt (bw_end (brun bworld_init closed) false) = true ∧
  be_task (bw_end (brun bworld_init closed) false) = TStarted ∧
  ∀ c, be_task (bw_end (brun bworld_init (closed ++ [RunTask false; RunTask true; RunTask true])) c) = TDone.
Proof. repeat (split; [reflexivity|]). by intros []. Qed.
Print Assumptions C157_in_order.
Print Assumptions C158_refuted.
Print Assumptions C158_partial.
Print Assumptions C159_refuted.
Print Assumptions C159_partial.
Print Assumptions C160_refuted.
Print Assumptions C160_partial.
Print Assumptions C160_read_partial.
