(** C167-C170: messages over a TCP stream. *)
From Coq Require Import Lia.
From stdpp Require Import prelude.
From Verif Require Import ReliableConn_Model.
Local Open Scope nat_scope.

(** the kernel took the whole of every message *)
Definition whole (e : revent) : Prop := match e with TcpSend m n => length m ≤ n | _ => True end.

(** C167: recv returns the messages as they were sent, one by one.  False: messages that are under way together come as one, and one that is
    longer than the buffer comes in parts. *)
Theorem C167_refuted :
  ¬ (∀ es, Forall whole es → rs_bytes (rrun rstream_init es) = [] →
       rs_got (rrun rstream_init es) = rs_sent (rrun rstream_init es)).
Proof.
  intros H. specialize (H [TcpSend [1; 2]%N 2; TcpSend [3]%N 1; Recv 4096]).
  discriminate H; [|reflexivity]. repeat constructor.
Qed.
(** What holds: the bytes come in order, none lost, none twice, as long as the kernel takes whole messages. *)
Lemma bytes_step s e :
  whole e → concat (rs_got s) ++ rs_bytes s = concat (rs_sent s) → concat (rs_got (rstep s e)) ++ rs_bytes (rstep s e) = concat (rs_sent (rstep s e)).
Proof.
  intros He H. destruct e as [m n|m|n]; cbn [rstep].
  - cbn. rewrite concat_app, app_assoc, H, take_ge by done. cbn. by rewrite app_nil_r.
  - cbn. rewrite concat_app, app_assoc, H. cbn. by rewrite app_nil_r.
  - unfold recv. destruct (take (n `min` buffer) (rs_bytes s)) as [|x l] eqn:E; [done|]. cbn [rs_got rs_bytes rs_sent].
    rewrite concat_app. cbn [concat]. rewrite app_nil_r, <- app_assoc, <- E, take_drop. done.
Qed.
Theorem C167_bytes_partial es :
  Forall whole es →
  concat (rs_got (rrun rstream_init es)) ++ rs_bytes (rrun rstream_init es) = concat (rs_sent (rrun rstream_init es)).
Proof.
  assert (∀ s, concat (rs_got s) ++ rs_bytes s = concat (rs_sent s) → Forall whole es →
    concat (rs_got (rrun s es)) ++ rs_bytes (rrun s es) = concat (rs_sent (rrun s es))) as H; [|by apply H].
  induction es as [|e es IH]; intros s Hs He; [done|]. inversion He; subst. cbn. apply IH; [|done]. by apply bytes_step.
Qed.
(** And if each message is read, whole, before the next is sent, and is neither empty nor longer than the buffer, they come one by one. *)
Theorem C167_lockstep_partial ms :
  Forall (λ m, 0 < length m ≤ 4096) ms →
  rs_got (rrun rstream_init (m ← ms; [TcpSend m (length m); Recv (length m)])) = ms.
Proof.
  intros Hm.
  assert (∀ s, rs_bytes s = [] → rs_got (rrun s (m ← ms; [TcpSend m (length m); Recv (length m)])) = rs_got s ++ ms) as H; [|by rewrite H].
  induction Hm as [|m ms [H1 H2] Hm IH]; intros s Hs; [cbn; by rewrite app_nil_r|].
  rewrite bind_cons. unfold rrun. rewrite foldl_app. fold (rrun s [TcpSend m (length m); Recv (length m)]).
  assert (rrun s [TcpSend m (length m); Recv (length m)] = mk_rstream [] (rs_sent s ++ [m]) (rs_got s ++ [m])) as ->.
  { cbn [rrun foldl rstep]. unfold tcp_send, recv. rewrite Hs. cbn [rs_bytes rs_sent rs_got app].
    assert (length m `min` buffer = length m) as -> by (apply Nat.min_l; exact H2).
    rewrite !firstn_all, drop_all. destruct m; [cbn in H1; lia|done]. }
  fold (rrun (mk_rstream [] (rs_sent s ++ [m]) (rs_got s ++ [m])) (m ← ms; [TcpSend m (length m); Recv (length m)])).
  rewrite IH by done. cbn. by rewrite <- app_assoc.
Qed.
Example C167_example :
  rs_got (rrun rstream_init ([[1; 2]; [3]; [4; 5; 6]]%N ≫= λ m, [TcpSend m (length m); Recv (length m)])) = [[1; 2]; [3]; [4; 5; 6]]%N ∧
  rs_got (rrun rstream_init [WrapperSend [1; 2]%N; Recv 1; WrapperSend [3]%N; Recv 9]) = [[1]; [2; 3]]%N.
Proof. split; reflexivity. Qed.

(** C168: Ok from send_to_peer means that the whole message was passed on.  False of TcpStream: a write of a part is Ok. *)
Definition passed_on (s : rstream) : list N := concat (rs_got s) ++ rs_bytes s.
Theorem C168_refuted :
  ¬ (∀ es m n, 0 < n → passed_on (rstep (rrun rstream_init es) (TcpSend m n)) = passed_on (rrun rstream_init es) ++ m).
Proof. intros H. specialize (H [] [1; 2; 3]%N 1 ltac:(lia)). discriminate H. Qed.
(** What holds: it does of StreamWrapper; and of TcpStream a first part is passed on. *)
Theorem C168_wrapper_partial es m :
  passed_on (rstep (rrun rstream_init es) (WrapperSend m)) = passed_on (rrun rstream_init es) ++ m.
Proof. unfold passed_on. cbn. by rewrite app_assoc. Qed.
Theorem C168_first_part_partial es m n :
  ∃ p, p `prefix_of` m ∧ passed_on (rstep (rrun rstream_init es) (TcpSend m n)) = passed_on (rrun rstream_init es) ++ p.
Proof. exists (take n m). split; [exists (drop n m); by rewrite take_drop|]. unfold passed_on. cbn. by rewrite app_assoc. Qed.
Example C168_example :
  passed_on (rrun rstream_init [TcpSend [1; 2; 3]%N 2; Recv 1; TcpSend [4]%N 1]) = [1; 2; 4]%N.
Proof. reflexivity. Qed.

(** C169: recv_until_serialized returns the first message that can be read and passes the test, and an error when the connection
    has ended.  The second is false: it reads on for ever (for types that an empty message does not encode). *)
Theorem C169_refuted {T} (deser : list N → option T) f n m :
  deser [] = None → recv_until deser f (replicate n (Some [])) = None ∧ recv_until deser f (replicate m None) = None.
Proof. intros H. split; [induction n|induction m]; cbn; rewrite ?H; done. Qed.
Definition passes {T} (deser : list N → option T) (f : T → bool) (r : option (list N)) (p : T) : Prop :=
  ∃ m, r = Some m ∧ deser m = Some p ∧ f p = true.
Theorem C169_first_partial {T} (deser : list N → option T) f reads p :
  recv_until deser f reads = Some p ↔
  ∃ k r, reads !! k = Some r ∧ passes deser f r p ∧ ∀ j r' q, j < k → reads !! j = Some r' → ¬ passes deser f r' q.
Proof.
  induction reads as [|r reads IH].
  - cbn. split; [done|]. intros (k & r & Hk & _). by rewrite lookup_nil in Hk.
  - assert ((∀ q, ¬ passes deser f r q) → recv_until deser f (r :: reads) = recv_until deser f reads) as Hskip.
    { intros Hn. cbn. destruct r as [m|]; [|done]. destruct (deser m) as [q|] eqn:Ed; [|done]. destruct (f q) eqn:Ef; [|done].
      destruct (Hn q). by exists m. }
    assert ((∃ q, passes deser f r q ∧ recv_until deser f (r :: reads) = Some q) ∨ (∀ q, ¬ passes deser f r q)) as [(q & Hq & Er)|Hn].
    { destruct r as [m|]; [|right; by intros q (m & [=] & _)]. cbn. destruct (deser m) as [q|] eqn:Ed.
      - destruct (f q) eqn:Ef; [left; exists q; split; [by exists m|done]|]. right. intros q' (m' & [= <-] & E1 & E2). congruence.
      - right. intros q' (m' & [= <-] & E1 & E2). congruence. }
    + rewrite Er. split.
      * intros [= <-]. exists 0, r. split; [done|]. split; [done|]. intros j r' q' Hj. lia.
      * intros (k & r' & Hk & Hp & Hf). destruct k as [|k].
        -- cbn in Hk. injection Hk as <-. destruct Hq as (m & -> & E1 & _), Hp as (m' & [= <-] & E2 & _). congruence.
        -- destruct (Hf 0 r q); [lia|done|done].
    + rewrite (Hskip Hn), IH. split.
      * intros (k & r' & Hk & Hp & Hf). exists (S k), r'. split; [done|]. split; [done|]. intros [|j] r'' q Hj Hr'.
        -- cbn in Hr'. injection Hr' as <-. apply Hn.
        -- eapply (Hf j); [lia|exact Hr'].
      * intros (k & r' & Hk & Hp & Hf). destruct k as [|k]; [cbn in Hk; injection Hk as <-; by destruct (Hn p)|].
        exists k, r'. split; [done|]. split; [done|]. intros j r'' q Hj Hr'. apply (Hf (S j)); [lia|done].
Qed.
Example C169_example :
  recv_until (λ m, match m with [x] => Some x | _ => None end) (λ x, bool_decide (5 < x)%N) [Some [1; 2]; Some [3]; None; Some [7]; Some [8]]%N = Some 7%N.
Proof. reflexivity. Qed.

(** C170: an end of a StreamWrapper can send while it waits to receive.  False: two ends that both wait do so for ever, with what they
    want to send. *)
Definition both_recv : list wevent := [WRecv true; WRecv false].
Theorem C170_refuted es b :
  we_recv (ww_end (wrun wworld_init (both_recv ++ es)) b) = true ∧ we_in (ww_end (wrun wworld_init (both_recv ++ es)) b) = [].
Proof.
  unfold wrun. rewrite foldl_app. fold (wrun wworld_init both_recv). fold (wrun (wrun wworld_init both_recv) es).
  assert (∀ w, (∀ c, we_recv (ww_end w c) = true ∧ we_in (ww_end w c) = []) →
    ∀ c, we_recv (ww_end (wrun w es) c) = true ∧ we_in (ww_end (wrun w es) c) = []) as H; [|apply H; by intros []].
  induction es as [|e es IH]; intros w Hw; [done|]. cbn. apply IH. clear IH. intros c. destruct (Hw c) as [R I].
  destruct e as [d|d x|d|d]; cbn; destruct (Hw d) as [Rd Id]; rewrite ?Rd, ?Id; cbn; try done.
  all: destruct (Bool.eqb c d); done.
Qed.
(** What holds: an end that does not wait to receive sends at once, and a message that waits goes out when what the end waits for has come. *)
Theorem C170_partial w b x :
  we_recv (ww_end w b) = false → we_in (ww_end (wstep w (WSend b x)) (negb b)) = we_in (ww_end w (negb b)) ++ [x].
Proof. intros H. cbn. rewrite H. cbn. by rewrite Bool.eqb_reflx. Qed.
Theorem C170_after_partial w b x y rest :
  we_recv (ww_end w b) = true → we_in (ww_end w b) = y :: rest → we_wait (ww_end w b) = [x] →
  we_in (ww_end (wrun w [WGot b; WNext b]) (negb b)) = we_in (ww_end w (negb b)) ++ [x].
Proof.
  intros H1 H2 H3. cbn. rewrite H1, H2. cbn. rewrite Bool.eqb_reflx. cbn. rewrite H3. cbn. rewrite Bool.eqb_reflx. by destruct b.
Qed.
Example C170_example :
  we_in (ww_end (wrun wworld_init [WRecv true; WSend true 4; WSend false 9; WGot true; WNext true]%N) false) = [4]%N ∧
  we_wait (ww_end (wrun wworld_init (both_recv ++ [WSend true 4; WSend false 5; WGot true; WNext false])%N) true) = [4]%N.
Proof. split; reflexivity. Qed.
Print Assumptions C167_refuted.
Print Assumptions C167_bytes_partial.
Print Assumptions C167_lockstep_partial.
Print Assumptions C168_refuted.
Print Assumptions C168_wrapper_partial.
Print Assumptions C168_first_part_partial.
Print Assumptions C169_refuted.
Print Assumptions C169_first_partial.
Print Assumptions C170_refuted.
Print Assumptions C170_partial.
Print Assumptions C170_after_partial.
