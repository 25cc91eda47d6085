(** Model of the requests between peers that the server keeps track of.

    Source: /repo/citadel_proto/src/proto/peer/peer_layer.rs, [SharedInner] (79-83) and its
    users.  [S] is the kind of signal kept.

    Simplifications: times are natural numbers; the keys the delay queue hands out are not
    reused (in the code a key may be reused once its entry is gone; [Postings_Proofs.keyed]
    shows that no posting keeps the key of an entry that is gone); the queue may give out
    any entry that is due; handling one call is one step, as the lock is held throughout. *)
From Coq Require Import ZifyBool ZifyNat ZifyN.
From stdpp Require Import prelude gmap.
Local Open Scope N_scope.

(** 103-108, without the closure *)
Record posting (S : Type) := mk_posting { po_sig : S; po_key : N }.
Arguments mk_posting {S}. Arguments po_sig {S}. Arguments po_key {S}.
Record delay := mk_delay { de_cid : N; de_ticket : N; de_due : N }.
Record layer (S : Type) := mk_layer {
  ly_map : gmap N (gmap N (posting S));     (* observed_postings *)
  ly_delays : gmap N delay;                 (* delay_queue *)
  ly_next : N;
  ly_now : N }.
Arguments mk_layer {S}. Arguments ly_map {S}. Arguments ly_delays {S}. Arguments ly_next {S}. Arguments ly_now {S}.

Definition layer_init {S} : layer S := mk_layer ∅ ∅ 0 0.

(** what becomes of a posting *)
Inductive lout (S : Type) :=
| Answered (c t : N) (x : S)
| TimedOut (c t : N) (x : S)
| Purged (c t : N) (x : S).
Arguments Answered {S}. Arguments TimedOut {S}. Arguments Purged {S}.

(** register_peer, 147-164 *)
Definition ly_register {S} (l : layer S) (c : N) : layer S :=
  match ly_map l !! c with
  | Some _ => l
  | None => mk_layer (<[c := ∅]> (ly_map l)) (ly_delays l) (ly_next l) (ly_now l)
  end.
(** on_session_shutdown, 185-190 *)
Definition ly_shutdown {S} (l : layer S) (c : N) : layer S :=
  mk_layer (delete c (ly_map l)) (ly_delays l) (ly_next l) (ly_now l).
(** insert_tracked_posting, 520-541: the delay first, then the posting, over an older one if there is one *)
Definition ly_insert {S} (l : layer S) (c t d : N) (x : S) : layer S :=
  let k := ly_next l in
  let delays := <[k := mk_delay c t (ly_now l + d)]> (ly_delays l) in
  match ly_map l !! c with
  | Some m => mk_layer (<[c := <[t := mk_posting x k]> m]> (ly_map l)) delays (k + 1) (ly_now l)
  | None => mk_layer (ly_map l) delays (k + 1) (ly_now l)
  end.
(** DelayQueue::remove: panics if there is no such entry *)
Definition drop_delay {S} (l : layer S) (k : N) : option (layer S) :=
  match ly_delays l !! k with
  | Some _ => Some (mk_layer (ly_map l) (delete k (ly_delays l)) (ly_next l) (ly_now l))
  | None => None
  end.
Definition take_posting {S} (l : layer S) (c t : N) : option (layer S * posting S) :=
  match ly_map l !! c with
  | None => None
  | Some m =>
      match m !! t with
      | None => None
      | Some p => Some (mk_layer (<[c := delete t m]> (ly_map l)) (ly_delays l) (ly_next l) (ly_now l), p)
      end
  end.
(** remove_tracked_posting_inner, 543-565; [None]: panic *)
Definition ly_remove {S} (l : layer S) (c t : N) : option (layer S * option S) :=
  match take_posting l c t with
  | None => Some (l, None)
  | Some (l', p) =>
      match drop_delay l' (po_key p) with
      | None => None
      | Some l'' => Some (l'', Some (po_sig p))
      end
  end.
(** poll_purge, 406-424, for one entry of the queue that is due *)
Definition ly_expire {S} (l : layer S) (k : N) : layer S * option (lout S) :=
  match ly_delays l !! k with
  | None => (l, None)
  | Some e =>
      if de_due e <=? ly_now l then
        let l1 := mk_layer (ly_map l) (delete k (ly_delays l)) (ly_next l) (ly_now l) in
        match take_posting l1 (de_cid e) (de_ticket e) with
        | None => (l1, None)
        | Some (l2, p) => (l2, Some (TimedOut (de_cid e) (de_ticket e) (po_sig p)))
        end
      else (l, None)
  end.
(** remove_pending_post_connect_between, 578-626, for one owner: [f] says which postings go *)
Fixpoint purge_list {S} (l : layer S) (c : N) (ts : list N) : option (layer S * list (lout S)) :=
  match ts with
  | [] => Some (l, [])
  | t :: rest =>
      match ly_remove l c t with
      | None => None
      | Some (l1, r) =>
          match purge_list l1 c rest with
          | None => None
          | Some (l2, os) => Some (l2, match r with Some x => Purged c t x :: os | None => os end)
          end
      end
  end.
Definition stale {S} (l : layer S) (c : N) (f : S → bool) : list N :=
  match ly_map l !! c with
  | None => []
  | Some m => (map_to_list (filter (λ '(_, p), f (po_sig p) = true) m)).*1
  end.
Definition ly_purge {S} (l : layer S) (c : N) (f : S → bool) : option (layer S * list (lout S)) :=
  purge_list l c (stale l c f).
(** check_simultaneous_event, 499-513: some posting of the account that satisfies [f] *)
Definition ly_find {S} (l : layer S) (c : N) (f : S → bool) : option N :=
  match ly_map l !! c with
  | None => None
  | Some m => head (map_to_list (filter (λ '(_, p), f (po_sig p) = true) m)).*1
  end.

Inductive levent (S : Type) :=
| LRegister (c : N)
| LShutdown (c : N)
| LInsert (c t d : N) (x : S)
| LAnswer (c t : N)
| LExpire (k : N)
| LPurge (c : N) (f : S → bool)
| LTick (d : N).
Arguments LRegister {S}. Arguments LShutdown {S}. Arguments LInsert {S}. Arguments LAnswer {S}. Arguments LExpire {S}.
Arguments LPurge {S}. Arguments LTick {S}.

(** [None]: a panic *)
Definition lstep {S} (l : layer S) (e : levent S) : option (layer S * list (lout S)) :=
  match e with
  | LRegister c => Some (ly_register l c, [])
  | LShutdown c => Some (ly_shutdown l c, [])
  | LInsert c t d x => Some (ly_insert l c t d x, [])
  | LAnswer c t =>
      match ly_remove l c t with
      | None => None
      | Some (l', Some x) => Some (l', [Answered c t x])
      | Some (l', None) => Some (l', [])
      end
  | LExpire k => let '(l', o) := ly_expire l k in Some (l', match o with Some x => [x] | None => [] end)
  | LPurge c f => ly_purge l c f
  | LTick d => Some (mk_layer (ly_map l) (ly_delays l) (ly_next l) (ly_now l + d), [])
  end.
Fixpoint lrun {S} (l : layer S) (es : list (levent S)) : option (layer S * list (lout S)) :=
  match es with
  | [] => Some (l, [])
  | e :: rest =>
      match lstep l e with
      | None => None
      | Some (l1, x) => match lrun l1 rest with None => None | Some (l2, y) => Some (l2, x ++ y) end
      end
  end.
