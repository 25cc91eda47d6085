(** What the properties of requests, subscriptions and the kernel (C110 to C118) say. *)
From stdpp Require Import prelude.
From Verif Require Import Kernel_Model.

(** A result concerns a subscription: it carries the ticket, and the session if the
    subscription names one. *)
Definition concerns (r : nresult) (k : ckey) : Prop :=
  ∃ c, callback_key r = Some (mk_ckey (k_ticket k) c) ∧ ∀ x, k_cid k = Some x → c = Some x.
Global Instance concerns_dec r k : Decision (concerns r k).
Proof.
  destruct (callback_key r) as [k'|] eqn:E.
  - assert (D : Decision (k_ticket k' = k_ticket k ∧ match k_cid k with Some x => k_cid k' = Some x | None => True end))
      by (destruct (k_cid k); apply _).
    destruct D as [H|H].
    + left. destruct k' as [t c]. cbn in H. exists c. destruct H as [<- H]. split; [done|]. intros x Hx. by rewrite Hx in H.
    + right. intros (c & Hc & Hx). rewrite E in Hc. injection Hc as ->. apply H. cbn. split; [done|].
      destruct (k_cid k); [by apply Hx|done].
  - right. intros (c & Hc & _). congruence.
Defined.

(** the results handed to anybody, in order *)
Definition handed (os : list kobs) : list nresult :=
  omap (λ o, match o with OSub _ r | OKernel r => Some r | _ => None end) os.
(** the results the node produces in a run, in order *)
Fixpoint produced (w : kworld) (es : list kevent) : list nresult :=
  match es with
  | [] => []
  | e :: rest =>
      match e with Dispatch _ => [] | _ => drop (length (kw_results w)) (kw_results (kstep w e).1) end ++ produced (kstep w e).1 rest
  end.
Definition not_shutdown (r : nresult) : Prop := r ≠ Shutdown.
Global Instance not_shutdown_dec r : Decision (not_shutdown r).
Proof. destruct r; first [left; discriminate | right; intros H; by apply H]. Defined.

(** Every subscription has a new ticket (get_next_ticket draws them at random from 2^122). *)
Fixpoint fresh (used : list N) (es : list kevent) : Prop :=
  match es with
  | [] => True
  | Subscribe t _ :: rest => t ∉ used ∧ fresh (t :: used) rest
  | _ :: rest => fresh used rest
  end.
(** the tickets of the subscriptions made in a run *)
Definition tickets (es : list kevent) : list N :=
  omap (λ e, match e with Subscribe t _ => Some t | _ => None end) es.

(** The [i]th subscription is in the hands of its user. *)
Definition is_open (w : kworld) (i : nat) (k : ckey) : Prop := ∃ s, kw_subs w !! i = Some s ∧ s_key s = k ∧ s_open s = true.
Definition got (w : kworld) (i : nat) : list nresult := match kw_subs w !! i with Some s => s_got s | None => [] end.
(** its stream has ended: no sender is left *)
Definition ended (w : kworld) (i : nat) : Prop := ∀ k, (k, i) ∉ kw_map w.

Definition keeps (i : nat) (e : kevent) : Prop := e ≠ DropSub i.
(** the protocol produces nothing for the subscription *)
Definition silent (k : ckey) (e : kevent) : Prop := match e with NodeEmit r => ¬ concerns r k | _ => True end.
(** no call of on_node_event_received returns *)
Definition no_handler_ends (e : kevent) : Prop := match e with HandlerEnd _ _ => False | _ => True end.
Definition kernel_first (e : kevent) : Prop := match e with ServerReturns _ => False | _ => True end.
(** what the end of the executor looks like from outside *)
Definition is_end (o : kobs) : bool := match o with OOnStop | OStopped | OReturned _ => true | _ => false end.
Definition ends (os : list kobs) : list kobs := filter (λ o, is_end o = true) os.
(** nobody sends another request with that ticket *)
Definition other_ticket (t : N) (e : kevent) : Prop := match e with Send t' _ => t' ≠ t | _ => True end.
