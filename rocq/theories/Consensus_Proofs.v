From Coq Require Import ZifyBool ZifyNat ZifyN.
From stdpp Require Import prelude gmap.
From Verif Require Import Consensus_Model Consensus_Spec.
Local Open Scope N_scope.

Definition is_verdict (m : msg) : bool := match m with Verdict _ => true | _ => false end.
(** what a message says about the result of its sender *)
Definition says (m : msg) : option bool :=
  match m with ObtainedValidResult => Some true | Error => Some false | Pinging i => i | Verdict _ => None end.
Definition truthful (ret : option result) (m : msg) : Prop := is_verdict m = false ∧ ∀ b, says m = Some b → info ret = Some b.

Section Generic.
  Context {A : Type} (dec : option result → msg → option (verdict * A)) (fin : option result → verdict → option A).
  (** a verdict of the preferred node ends the operation for the other one *)
  Context (Hfin : ∀ ret m v a ret', dec ret m = Some (v, a) → is_Some (fin ret' v)).
  Notation step := (step dec fin).
  Notation run := (run dec fin).

  Definition Inv (x : world A) : Prop :=
    (∀ m, m ∈ to_p x → truthful (e_ret (w_n x)) m) ∧
    (match w_v x with
     | None => e_out (w_p x) = None ∧ e_out (w_n x) = None ∧ ∀ m, m ∈ to_n x → is_verdict m = false
     | Some v => ∃ m a, truthful (e_ret (w_n x)) m ∧ dec (e_ret (w_p x)) m = Some (v, a) ∧ e_out (w_p x) = Some a ∧
         ((e_out (w_n x) = None ∧ Verdict v ∈ to_n x ∧ ∀ v', Verdict v' ∈ to_n x → v' = v) ∨
          (∃ b, fin (e_ret (w_n x)) v = Some b ∧ e_out (w_n x) = Some b))
     end) ∧
    (w_v x = None → e_ret (w_p x) ≠ None ∨ e_ret (w_n x) ≠ None → to_p x ++ to_n x ≠ []) ∧
    (length (to_p x) + length (to_n x) <=
       (if e_ret (w_p x) then 1 else 0) + (if e_ret (w_n x) then 1 else 0))%nat.

  Lemma truthful_mono r m : truthful None m → truthful (Some r) m.
  Proof using. intros [H1 H2]. split; [done|]. intros b Hb. by specialize (H2 b Hb). Qed.
  Lemma truthful_ping ret : truthful ret (Pinging (info ret)).
  Proof using. split; [done|]. by intros b. Qed.

  Lemma finish_spec (e : node A) r e' m : finish e r = Some (e', m) →
    e_out e = None ∧ e_ret e = None ∧ e' = mk_node (Some r) None ∧ m = match r with Some _ => ObtainedValidResult | None => Error end.
  Proof using. unfold finish. destruct (e_out e), (e_ret e); intros; simplify_eq; done. Qed.

  Lemma Inv_step x e x' : Inv x → step x e = Some x' → Inv x'.
  Proof using Hfin.
    intros (I1 & I2 & I3 & I4) E. destruct e as [[] r| |]; cbn [Consensus_Model.step] in E.
    - destruct (finish (w_p x) r) as [[p' m]|] eqn:Ef; [|done]. injection E as <-. apply finish_spec in Ef as (Eo & Er & -> & ->).
      split_and!; cbn [w_p w_n w_v to_p to_n e_ret e_out] in *.
      + done.
      + destruct (w_v x) as [v|]; [destruct I2 as (m & a & _ & _ & ? & _); congruence|]. destruct I2 as (_ & ? & I2). split_and!; [done|done|].
        intros m. rewrite elem_of_app, elem_of_list_singleton. intros [?| ->]; [by apply I2|]. by destruct r.
      + intros _ _ [_ [_ ?]%app_nil]%app_nil. done.
      + rewrite app_length. rewrite Er in I4. cbn [length]. lia.
    - destruct (finish (w_n x) r) as [[p' m]|] eqn:Ef; [|done]. injection E as <-. apply finish_spec in Ef as (Eo & Er & -> & ->).
      split_and!; cbn [w_p w_n w_v to_p to_n e_ret e_out] in *.
      + intros m. rewrite elem_of_app, elem_of_list_singleton. intros [Hm| ->].
        * specialize (I1 m Hm). rewrite Er in I1. by apply truthful_mono.
        * destruct r; (split; [done|]); by intros b [= <-].
      + destruct (w_v x) as [v|]; [|by destruct I2 as (? & _ & I2)]. destruct I2 as (m & a & Ht & Hd & Ho & Hn). rewrite Er in Ht.
        exists m, a. split_and!; [by apply truthful_mono|done|done|]. rewrite Eo in Hn. destruct Hn as [(_ & ? & ?)|(b & _ & ?)]; [by left|done].
      + intros _ _ [[_ ?]%app_nil _]%app_nil. done.
      + rewrite app_length. rewrite Er in I4. cbn [length]. lia.
    - destruct (to_p x) as [|m rest] eqn:Et; [done|]. cbn [length] in I4.
      assert (Htm : truthful (e_ret (w_n x)) m) by (apply I1; by left).
      assert (I1' : ∀ m, m ∈ rest → truthful (e_ret (w_n x)) m) by (intros ??; apply I1; by right).
      destruct (e_out (w_p x)) as [a0|] eqn:Eo.
      + injection E as <-. split_and!; cbn [w_p w_n w_v to_p to_n e_ret e_out] in *; try done.
        * destruct (w_v x); [|by destruct I2]. by rewrite Eo.
        * intros Hv. rewrite Hv in I2. by destruct I2.
        * lia.
      + assert (Hv : w_v x = None).
        { destruct (w_v x) as [v|]; [|done]. destruct I2 as (? & ? & _ & _ & ? & _). congruence. }
        rewrite Hv in I2. destruct I2 as (_ & Hno & I2).
        destruct (dec (e_ret (w_p x)) m) as [[v a]|] eqn:Ed; injection E as <-.
        * split_and!; cbn [w_p w_n w_v to_p to_n e_ret e_out] in *; try done.
          -- exists m, a. split_and!; try done. left. split_and!; [done|rewrite elem_of_app; right; by left|].
             intros v'. rewrite elem_of_app, elem_of_list_singleton. intros [H|H]; [by specialize (I2 _ H)|congruence].
          -- rewrite app_length. cbn [length]. lia.
        * rewrite Hv. split_and!; cbn [w_p w_n w_v to_p to_n e_ret e_out] in *; try done.
          -- split_and!; [done|done|]. intros m'. rewrite elem_of_app, elem_of_list_singleton. intros [H| ->]; [by apply I2|done].
          -- intros _ _ [_ [_ ?]%app_nil]%app_nil. done.
          -- rewrite app_length. cbn [length]. lia.
    - destruct (to_n x) as [|m rest] eqn:Et; [done|]. cbn [length] in I4.
      destruct (e_out (w_n x)) as [b0|] eqn:Eo.
      + injection E as <-. destruct (w_v x) as [v|] eqn:Hv; [|by destruct I2 as (_ & ? & _)].
        destruct I2 as (m' & a & ? & ? & ? & [(? & _)|(b & ? & ?)]); [done|].
        split_and!; cbn [w_p w_n w_v to_p to_n e_ret e_out] in *; rewrite ?Hv, ?Eo; try done.
        * exists m', a. split_and!; try done. right. by exists b.
        * lia.
      + destruct m as [| |i|v].
        1-3: injection E as <-; (split_and!; cbn [w_p w_n w_v to_p to_n e_ret e_out] in *;
          [ intros m'; rewrite elem_of_app, elem_of_list_singleton; intros [?| ->]; [by apply I1|apply truthful_ping]
          | destruct (w_v x) as [v'|]; [|destruct I2 as (? & ? & I2); split_and!; [done|done|intros ??; apply I2; by right]];
            destruct I2 as (m' & a & ? & ? & ? & [(? & Hin & Hall)|(b & ? & ?)]); [|done];
            exists m', a; split_and!; try done; left; split_and!; [done| |intros ??; apply Hall; by right];
            by apply elem_of_cons in Hin as [?|?]
          | intros _ _ [[_ ?]%app_nil _]%app_nil; done
          | rewrite app_length; cbn [length]; lia ]).
        destruct (w_v x) as [v0|] eqn:Hv; [|destruct I2 as (_ & _ & I2); by specialize (I2 (Verdict v) ltac:(left))].
        destruct I2 as (m' & a & Ht & Hd & Ho & [(_ & Hin & Hall)|(b & ? & ?)]); [|done].
        assert (v = v0) as -> by (apply Hall; by left).
        destruct (Hfin _ _ _ _ (e_ret (w_n x)) Hd) as [b Hb]. rewrite Hb in E. injection E as <-.
        split_and!; cbn [w_p w_n w_v to_p to_n e_ret e_out] in *; rewrite ?Hv; try done.
        * exists m', a. split_and!; try done. right. by exists b.
        * lia.
  Qed.
  Lemma Inv_init : Inv (init : world A).
  Proof using.
    split_and!; cbn; [by intros m ?%elem_of_nil|split_and!; [done|done|by intros m ?%elem_of_nil]|by intros _ [?|?]|lia].
  Qed.
  Lemma Inv_run es : ∀ x x', Inv x → run x es = Some x' → Inv x'.
  Proof using Hfin.
    induction es as [|e es IH]; intros x x' HI E; cbn in E; [by injection E as <-|]. destruct (step x e) as [x1|] eqn:E1; [|done].
    eapply IH; [|done]. by eapply Inv_step.
  Qed.

  (** results come from the futures *)
  Lemma step_ret x e x' : step x e = Some x' →
    e_ret (w_p x') = match e with Finish true r => Some r | _ => e_ret (w_p x) end ∧
    e_ret (w_n x') = match e with Finish false r => Some r | _ => e_ret (w_n x) end ∧
    (∀ p r, e = Finish p r → e_ret (if p then w_p x else w_n x) = None).
  Proof using.
    intros E. destruct e as [[] r| |]; cbn [Consensus_Model.step] in E.
    - destruct (finish (w_p x) r) as [[p' m]|] eqn:Ef; [|done]. injection E as <-. apply finish_spec in Ef as (Eo & Er & -> & ->). split_and!; try done. by intros p r' [= <- <-].
    - destruct (finish (w_n x) r) as [[p' m]|] eqn:Ef; [|done]. injection E as <-. apply finish_spec in Ef as (Eo & Er & -> & ->). split_and!; try done. by intros p r' [= <- <-].
    - repeat case_match; simplify_eq; done.
    - destruct (to_n x) as [|m rest]; [done|]. destruct (e_out (w_n x)); [by injection E as <-|].
      destruct (match m with Verdict v => fin (e_ret (w_n x)) v | _ => None end); by injection E as <-.
  Qed.
  Lemma run_ret es : ∀ x x', run x es = Some x' →
    e_ret (w_p x') = (match e_ret (w_p x) with Some r => Some r | None => outcome true es end) ∧
    e_ret (w_n x') = (match e_ret (w_n x) with Some r => Some r | None => outcome false es end).
  Proof using.
    induction es as [|e es IH]; intros x x' E; cbn in E.
    - injection E as <-. cbn. by destruct (e_ret (w_p x)), (e_ret (w_n x)).
    - destruct (step x e) as [x1|] eqn:E1; [|done]. destruct (step_ret _ _ _ E1) as (Ep & En & Hf). destruct (IH _ _ E) as [Hp Hn]. rewrite Hp, Hn, Ep, En.
      destruct e as [[] r| |]; cbn [outcome Bool.eqb]; try done.
      + specialize (Hf _ _ eq_refl). cbn in Hf. by rewrite Hf.
      + specialize (Hf _ _ eq_refl). cbn in Hf. by rewrite Hf.
  Qed.
  Lemma run_init_ret es x : run init es = Some x → e_ret (w_p x) = outcome true es ∧ e_ret (w_n x) = outcome false es.
  Proof using. intros E. apply run_ret in E. done. Qed.

  (** ** Ending *)
  Definition decided (x : world A) : Prop := is_Some (dec (e_ret (w_p x)) (Pinging (info (e_ret (w_n x))))).
  Definition weight (ret : option result) (m : msg) : nat := match dec ret m with Some _ => 1%nat | None => 3%nat end.
  Lemma weight_some ret m va : dec ret m = Some va → weight ret m = 1%nat.
  Proof using. unfold weight. by intros ->. Qed.
  Lemma weight_none ret m : dec ret m = None → weight ret m = 3%nat.
  Proof using. unfold weight. by intros ->. Qed.
  Definition mu (x : world A) : nat :=
    (sum_list (weight (e_ret (w_p x)) <$> to_p x) + 2 * length (to_n x) + match e_out (w_p x) with None => 3 | Some _ => 0 end)%nat.
  Lemma sum_list_app l1 l2 : (sum_list (l1 ++ l2) = sum_list l1 + sum_list l2)%nat.
  Proof using. induction l1 as [|a l1 IH]; cbn; [done|]. lia. Qed.
  Lemma mu_deliver x e x' : decided x → delivery e → step x e = Some x' → (mu x' < mu x)%nat ∧ decided x'.
  Proof using.
    clear Hfin.
    intros [va Hd] He E. split; [|destruct (step_ret _ _ _ E) as (Ep & En & _); unfold decided; destruct e; [done|..]; rewrite Ep, En; by eexists].
    unfold mu. destruct e as [? r| |]; [done| |]; cbn [Consensus_Model.step] in E.
    - destruct (to_p x) as [|m rest] eqn:Et; [done|]. cbn [fmap list_fmap sum_list_with id].
      destruct (dec (e_ret (w_p x)) m) as [[v a]|] eqn:Ed; [apply weight_some in Ed as Hw|apply weight_none in Ed as Hw]; rewrite Hw;
        destruct (e_out (w_p x)) eqn:Eo; injection E as <-; cbn [w_p w_n to_p to_n e_ret e_out]; rewrite ?Eo, ?app_length; cbn [length]; lia.
    - destruct (to_n x) as [|m rest] eqn:Et; [done|]. cbn [length].
      destruct (e_out (w_n x)) eqn:Eo; [injection E as <-; cbn; lia|].
      destruct (match m with Verdict v => fin (e_ret (w_n x)) v | _ => None end) as [a|]; injection E as <-; cbn [w_p w_n to_p to_n e_ret e_out]; [lia|].
      rewrite fmap_app, sum_list_app. cbn [fmap list_fmap sum_list_with id]. rewrite (weight_some _ _ _ Hd). lia.
  Qed.
  Lemma mu_run es : ∀ x x', decided x → Forall delivery es → run x es = Some x' → (length es + mu x' <= mu x)%nat.
  Proof using.
    clear Hfin.
    induction es as [|e es IH]; intros x x' Hd He E; cbn in E; [injection E as <-; cbn; lia|]. destruct (step x e) as [x1|] eqn:E1; [|done].
    apply Forall_cons in He as [He1 He2]. destruct (mu_deliver _ _ _ Hd He1 E1) as [Hlt Hd']. specialize (IH _ _ Hd' He2 E). cbn [length]. lia.
  Qed.
  Lemma mu_bound x : Inv x → (mu x <= 9)%nat.
  Proof using.
    clear Hfin.
    intros (_ & _ & _ & I4). unfold mu.
    assert (H : (sum_list (weight (e_ret (w_p x)) <$> to_p x) <= 3 * length (to_p x))%nat).
    { clear I4. generalize (to_p x). induction l as [|m l IH]; cbn; [lia|]. destruct (dec (e_ret (w_p x)) m) eqn:Ed; [rewrite (weight_some _ _ _ Ed)|rewrite (weight_none _ _ Ed)]; lia. }
    destruct (e_ret (w_p x)), (e_ret (w_n x)), (e_out (w_p x)); lia.
  Qed.
  Lemma quiet_returned x : Inv x → e_ret (w_p x) ≠ None ∨ e_ret (w_n x) ≠ None → step x ToP = None → step x ToN = None → both_returned x.
  Proof using.
    clear Hfin.
    intros (I1 & I2 & I3 & I4) Hf Hp Hn.
    assert (Ep : to_p x = []).
    { cbn in Hp. destruct (to_p x); [done|]. repeat case_match; done. }
    assert (En : to_n x = []).
    { cbn in Hn. destruct (to_n x); [done|]. repeat case_match; done. }
    destruct (w_v x) as [v|]; [|by destruct (I3 eq_refl Hf); rewrite Ep, En].
    destruct I2 as (m & a & _ & _ & Ha & [(_ & Hin & _)|(b & _ & Hb)]); [rewrite En in Hin; by apply elem_of_nil in Hin|]. by exists a, b.
  Qed.
End Generic.
