(** Model of the re-key protocol between the two ends of a session.

    Source: /repo/citadel_crypt/src/ratchets/ratchet_manager.rs (trigger_rekey_with_payload,
    spawn_rekey_process, rekey), endpoint_crypto_container.rs, sync_toggle.rs and toolset.rs.

    Simplifications: version numbers do not wrap (the toolset itself, with wrap-around, is
    Toolset_Model.v); the key exchange is symbolic: a constructor made by a trigger has an
    identity, the answer of the other end another, the key they give is the pair, and
    finishing a constructor with the answer to a different one fails (the decryption of the
    answer's parts fails, KeySched_Model.v); attached payloads, log output, listeners and
    the notifications to the messenger are left out; sending does not fail.  A trigger
    runs beside the receive loop, so it is cut into the pieces between which the loop
    can run: at every await, and where it reads state that the loop changes.  The
    straight-line stretch 533-583 (declare the version, store the constructor, set the
    toggle, check the version again), and the handling of one received message, are one
    piece each. *)
From stdpp Require Import prelude gmap.
Local Open Scope N_scope.

(** the secret of a ratchet: who started it, who answered *)
Notation rkey := (N * N)%type.

Inductive role := Idle | Leader | Loser.                    (* ratchet_manager.rs 140-146 *)

#[global] Instance role_eq_dec : EqDecision role.
Proof. solve_decision. Defined.

(** 163-180 RatchetMessage; the payload is the identity of the constructor *)
Inductive rmsg :=
| AliceToBob (ctor latest meta : N)
| BobToAlice (ctor answer meta : N)                         (* sender_role is always Loser *)
| Truncate (v : N)
| LeaderCanFinish (v : N)
| LoserCanFinish.

(** How far a running trigger is; the semaphore (316-321) admits one at a time. *)
Inductive trigger :=
| TNone
| TMeta (meta : N)                  (* past the checks, metadata taken (446) *)
| TCtor (ctor meta : N)             (* past get_next_constructor (474) *)
| TGot (ctor meta latest : N)       (* past reading the latest version (480) *)
| TReady (ctor meta latest : N).    (* past the last version check (565-583), about to send *)

Section rekey.
(** toolset.rs 38-41: MAX_RATCHETS_IN_MEMORY *)
Context (MAX : nat).

(** The ratchets in memory, oldest first, and the version of the oldest. *)
Record keyring := mk_keyring { kr_oldest : N; kr_keys : list rkey }.
Definition kr_newest (k : keyring) : N := kr_oldest k + N.of_nat (length (kr_keys k)) - 1.
Definition kr_get (k : keyring) (v : N) : option rkey :=
  if kr_oldest k <=? v then kr_keys k !! N.to_nat (v - kr_oldest k) else None.
(** toolset.rs 127-172: the new ratchet gets the version after the newest; whether the oldest has to go *)
Definition kr_push (k : keyring) (x : rkey) : keyring * option N :=
  let k' := mk_keyring (kr_oldest k) (kr_keys k ++ [x]) in
  (k', if bool_decide (MAX <= length (kr_keys k'))%nat then Some (kr_oldest k') else None).
(** toolset.rs 180-202 *)
Definition kr_pop (k : keyring) (v : N) : option keyring :=
  if bool_decide (length (kr_keys k) < MAX)%nat then None
  else if negb (kr_oldest k =? v) then None
  else match kr_keys k with [] => None | _ :: l => Some (mk_keyring (kr_oldest k + 1) l) end.

(** RatchetManager and PeerSessionCrypto, as far as the protocol uses them *)
Record node := mk_node {
  n_initiator : bool;
  n_ring : keyring;
  n_latest : N;               (* latest_usable_version *)
  n_declared : N;             (* declared_next_version *)
  n_toggle : bool;            (* update_in_progress *)
  n_role : role;
  n_ctors : gmap N N;         (* constructors *)
  n_stale : N;                (* stale_message_count of the current round *)
  n_meta : N;                 (* metadata of the current round (813): current_version *)
  n_trig : trigger }.

Definition set_ring x n := mk_node (n_initiator n) x (n_latest n) (n_declared n) (n_toggle n) (n_role n) (n_ctors n) (n_stale n) (n_meta n) (n_trig n).
Definition set_latest x n := mk_node (n_initiator n) (n_ring n) x (n_declared n) (n_toggle n) (n_role n) (n_ctors n) (n_stale n) (n_meta n) (n_trig n).
Definition set_declared x n := mk_node (n_initiator n) (n_ring n) (n_latest n) x (n_toggle n) (n_role n) (n_ctors n) (n_stale n) (n_meta n) (n_trig n).
Definition set_toggle x n := mk_node (n_initiator n) (n_ring n) (n_latest n) (n_declared n) x (n_role n) (n_ctors n) (n_stale n) (n_meta n) (n_trig n).
Definition set_role x n := mk_node (n_initiator n) (n_ring n) (n_latest n) (n_declared n) (n_toggle n) x (n_ctors n) (n_stale n) (n_meta n) (n_trig n).
Definition set_ctors x n := mk_node (n_initiator n) (n_ring n) (n_latest n) (n_declared n) (n_toggle n) (n_role n) x (n_stale n) (n_meta n) (n_trig n).
Definition set_stale x n := mk_node (n_initiator n) (n_ring n) (n_latest n) (n_declared n) (n_toggle n) (n_role n) (n_ctors n) x (n_meta n) (n_trig n).
Definition set_meta x n := mk_node (n_initiator n) (n_ring n) (n_latest n) (n_declared n) (n_toggle n) (n_role n) (n_ctors n) (n_stale n) x (n_trig n).
Definition set_trig x n := mk_node (n_initiator n) (n_ring n) (n_latest n) (n_declared n) (n_toggle n) (n_role n) (n_ctors n) (n_stale n) (n_meta n) x.

(** how a received message leaves the round *)
Inductive outcome := Continue | Done | Failed.
#[global] Instance outcome_eq_dec : EqDecision outcome.
Proof. solve_decision. Defined.

(** endpoint_crypto_container.rs 404-407 *)
Definition sync_declared_version (n : node) : node := set_declared (n_latest n) n.
(** endpoint_crypto_container.rs 305-320 *)
Definition post_alice_stage1 (n : node) : node :=
  match kr_get (n_ring n) (n_latest n + 1) with Some _ => set_latest (n_latest n + 1) n | None => n end.
(** endpoint_crypto_container.rs 127-141, get_ratchet(None): its version *)
Definition current_ratchet (n : node) : option N :=
  let v := match kr_get (n_ring n) (n_latest n) with Some _ => n_latest n | None => n_latest n - 1 end in
  match kr_get (n_ring n) v with Some _ => Some v | None => None end.

Definition MAX_STALE : N := 20.
(** a skipped message: 895-906 and alike *)
Definition skip (n : node) : node * list rmsg * outcome :=
  let n' := set_stale (n_stale n + 1) n in
  (n', [], if MAX_STALE <=? n_stale n' then Failed else Continue).

(** endpoint_crypto_container.rs 239-289 and 150-231 with a Bob constructor (triggered_by_bob_to_alice = false):
    [None] is Contended *)
Definition update_as_bob (n : node) (ctor answer : N) : node * bool :=
  if n_toggle n && negb (n_initiator n) then (set_toggle true n, false)
  else (set_ring (kr_push (n_ring n) (ctor, answer)).1 (set_toggle true n), true).
(** the same with a finished Alice constructor *)
Definition update_as_alice (n : node) (ctor answer : N) : node * option N :=
  let '(r, old) := kr_push (n_ring n) (ctor, answer) in (set_ring r (set_toggle true n), old).

(** 860-1075 *)
Definition on_alice_to_bob (n : node) (answer : N) (ctor latest meta : N) : node * list rmsg * outcome :=
  match current_ratchet n with
  | None => (n, [], Failed)                                                       (* 872-879 *)
  | Some _ =>
      if negb (latest =? n_latest n) then                                         (* 893 *)
        if latest <? n_latest n then skip (set_ctors (delete (meta + 1) (n_ctors n)) n)
        else (n, [], Failed)
      else if bool_decide (n_role n = Leader) && bool_decide (n_ctors n !! (meta + 1) = None) then skip n   (* 934-955 *)
      else if negb (meta =? n_meta n) then                                        (* 958 *)
        if meta <? n_meta n then skip (set_ctors (delete (meta + 1) (n_ctors n)) n)
        else (n, [], Failed)
      else
        match update_as_bob n ctor answer with
        | (n1, true) => (set_role Loser n1, [BobToAlice ctor answer (n_meta n)], Continue)     (* 1028-1063 *)
        | (n1, false) => (set_role Leader n1, [], Continue)                                    (* 1064-1069 *)
        end
  end.

(** 1079-1290 *)
Definition on_bob_to_alice (n : node) (ctor answer meta : N) : node * list rmsg * outcome :=
  if negb (meta =? n_latest n) then                                               (* 1086 *)
    if meta <? n_latest n then skip (set_ctors (delete (meta + 1) (n_ctors n)) n)
    else (n, [], Failed)
  else if bool_decide (n_role n = Loser) && negb (n_initiator n) then skip n      (* 1117-1190 *)
  else
    let n0 := set_role Leader n in
    match n_ctors n0 !! (meta + 1) with
    | None => skip n0                                                             (* 1195-1212 *)
    | Some c =>
        let n1 := set_ctors (delete (meta + 1) (n_ctors n0)) n0 in
        if negb (c =? ctor) then (n1, [], Failed)                                 (* stage1_alice 1222 *)
        else
          let '(n2, old) := update_as_alice n1 ctor answer in
          match old with
          | Some o =>                                                             (* 1252-1270 *)
              match kr_pop (n_ring n2) o with
              | Some r => (set_ring r n2, [Truncate o], Continue)
              | None => (n2, [], Failed)
              end
          | None => (n2, [LoserCanFinish], Continue)
          end
    end.

(** the common end of 1292-1355 and 1357-1420 *)
Definition loser_finish (n : node) : node * list rmsg * outcome :=
  let n1 := sync_declared_version (post_alice_stage1 n) in
  (set_ctors (delete (n_latest n1 + 1) (n_ctors n1)) n1, [LeaderCanFinish (n_latest n1)], Done).
Definition on_truncate (n : node) (v : N) : node * list rmsg * outcome :=
  if negb (bool_decide (n_role n = Loser)) then (n, [], Failed)
  else match kr_pop (n_ring n) v with
       | None => (n, [], Failed)
       | Some r => loser_finish (set_ring r n)
       end.
Definition on_loser_can_finish (n : node) : node * list rmsg * outcome :=
  if negb (bool_decide (n_role n = Loser)) then (n, [], Failed) else loser_finish n.

(** 1422-1490 *)
Definition on_leader_can_finish (n : node) (v : N) : node * list rmsg * outcome :=
  let n0 := match n_role n with Idle => set_role Leader n | _ => n end in
  if negb (bool_decide (n_role n0 = Leader)) then (n0, [], Failed)
  else
    let n1 := sync_declared_version (post_alice_stage1 n0) in
    if negb (n_latest n1 =? v) then (n1, [], Failed) else (n1, [], Done).

(** One message, without the end of the round.  [answer]: the randomness of a Bob constructor. *)
Definition on_message (n : node) (answer : N) (m : rmsg) : node * list rmsg * outcome :=
  match m with
  | AliceToBob c l me => on_alice_to_bob n answer c l me
  | BobToAlice c a me => on_bob_to_alice n c a me
  | Truncate v => on_truncate n v
  | LeaderCanFinish v => on_leader_can_finish n v
  | LoserCanFinish => on_loser_can_finish n
  end.

(** The next call of rekey: 705-709, 813-818 *)
Definition new_round (n : node) : node := set_stale 0 (set_meta (n_latest n) (set_role Idle n)).
(** 1507-1540, then the loop of spawn_rekey_process *)
Definition complete (n : node) : node :=
  let v := default 0 (current_ratchet n) in
  new_round (set_toggle false (set_ctors (filter (λ x, v < x.1) (n_ctors n)) n)).
(** the ToggleGuard (806-810), 727-735 *)
Definition failed (n : node) : node := new_round (sync_declared_version (set_toggle false n)).

Definition receive (n : node) (answer : N) (m : rmsg) : node * list rmsg * outcome :=
  let '(n', out, o) := on_message n answer m in
  (match o with Continue => n' | Done => complete n' | Failed => failed n' end, out, o).

(** The pieces of a trigger.  [patient]: the caller waits for the running round (wait_for_completion) and the wait ended
    with the version unchanged (376-431).  305-446: *)
Definition trigger_start (n : node) (patient : bool) : node :=
  match n_trig n with
  | TNone =>
      if n_latest n <? n_declared n then n
      else if negb (bool_decide (n_role n = Idle)) && negb patient then n
      else set_trig (TMeta (n_latest n)) n
  | _ => n
  end.
(** 463-474: the version advanced since *)
Definition trigger_give_up (n : node) : node :=
  match n_trig n with
  | TMeta m => if m <? n_latest n then set_trig TNone n else n
  | _ => n
  end.
(** 474 and 489-530, get_next_constructor: endpoint_crypto_container.rs 335-341 *)
Definition trigger_constructor (n : node) (ctor : N) : node :=
  match n_trig n with
  | TMeta m =>
      match n_toggle n, current_ratchet n with
      | false, Some _ => set_trig (TCtor ctor m) (set_toggle true n)
      | false, None => set_trig TNone (set_toggle true n)
      | true, _ => set_trig TNone n
      end
  | _ => n
  end.
(** 480 *)
Definition trigger_latest (n : node) : node :=
  match n_trig n with TCtor c m => set_trig (TGot c m (n_latest n)) n | _ => n end.
(** 533-583 *)
Definition trigger_declare (n : node) : node :=
  match n_trig n with
  | TGot c m l =>
      let n1 := set_toggle true (set_ctors (<[m + 1 := c]> (n_ctors n)) (set_declared (n_declared n + 1) n)) in
      if l =? n_latest n1 then set_trig (TReady c m l) n1
      else set_trig TNone (set_toggle false (set_ctors (delete (m + 1) (n_ctors n1)) (sync_declared_version n1)))
  | _ => n
  end.
(** 585-600 *)
Definition trigger_send (n : node) : node * list rmsg :=
  match n_trig n with
  | TReady c m l => (set_trig TNone n, [AliceToBob c l m])
  | _ => (n, [])
  end.

(** Both ends and the two ordered channels between them. *)
Record world := mk_world {
  w_node : bool → node;               (* true: the initiator *)
  w_out : bool → list rmsg;           (* sent by this end, not yet received *)
  w_fresh : N }.

Definition upd {A} (f : bool → A) (s : bool) (x : A) : bool → A := λ t, if Bool.eqb t s then x else f t.

Inductive revent :=
| Start (s : bool) (patient : bool)
| GiveUp (s : bool)
| Construct (s : bool)
| ReadLatest (s : bool)
| Declare (s : bool)
| Send (s : bool)
| Deliver (s : bool)               (* the end [s] receives the next message *)
| Timeout (s : bool)               (* 826-845: 60 seconds without a message in the middle of a round *)
| Forget (s : bool).                (* 335-356: a declared version older than 60 seconds is given up *)

(** what an observer sees: the outcome of a received message *)
Definition rstep (w : world) (e : revent) : world * option (bool * outcome) :=
  match e with
  | Start s p => (mk_world (upd (w_node w) s (trigger_start (w_node w s) p)) (w_out w) (w_fresh w), None)
  | GiveUp s => (mk_world (upd (w_node w) s (trigger_give_up (w_node w s))) (w_out w) (w_fresh w), None)
  | Construct s =>
      (mk_world (upd (w_node w) s (trigger_constructor (w_node w s) (w_fresh w))) (w_out w) (w_fresh w + 1), None)
  | ReadLatest s => (mk_world (upd (w_node w) s (trigger_latest (w_node w s))) (w_out w) (w_fresh w), None)
  | Declare s => (mk_world (upd (w_node w) s (trigger_declare (w_node w s))) (w_out w) (w_fresh w), None)
  | Send s =>
      let '(n, out) := trigger_send (w_node w s) in
      (mk_world (upd (w_node w) s n) (upd (w_out w) s (w_out w s ++ out)) (w_fresh w), None)
  | Deliver s =>
      match w_out w (negb s) with
      | [] => (w, None)
      | m :: rest =>
          let '(n, out, o) := receive (w_node w s) (w_fresh w) m in
          (mk_world (upd (w_node w) s n) (upd (upd (w_out w) (negb s) rest) s (w_out w s ++ out)) (w_fresh w + 1), Some (s, o))
      end
  | Timeout s =>
      if bool_decide (n_role (w_node w s) = Idle) then (w, None)
      else (mk_world (upd (w_node w) s (failed (w_node w s))) (w_out w) (w_fresh w), Some (s, Failed))
  | Forget s => (mk_world (upd (w_node w) s (sync_declared_version (w_node w s))) (w_out w) (w_fresh w), None)
  end.
Fixpoint rrun (w : world) (es : list revent) : world * list (bool * outcome) :=
  match es with
  | [] => (w, [])
  | e :: rest =>
      let '(w1, o) := rstep w e in let '(w2, os) := rrun w1 rest in
      (w2, match o with Some x => x :: os | None => os end)
  end.

(** PeerSessionCrypto::new and RatchetManager::new on both ends, with the keys agreed so far *)
Definition node_init (s : bool) (r : keyring) : node :=
  mk_node s r (kr_newest r) (kr_newest r) false Idle ∅ 0 (kr_newest r) TNone.
Definition world_init (r : keyring) : world := mk_world (λ s, node_init s r) (λ _, []) 1.
End rekey.
