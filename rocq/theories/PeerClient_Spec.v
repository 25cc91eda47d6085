(** What a user relies on, said of the events at a client and of what it put out. *)
From stdpp Require Import prelude gmap.
From Verif Require Import PeerClient_Model.
Local Open Scope N_scope.

Notation ctrace := (list (cevent * list cout)).

(** the user sends something about a connection with [p]: asks for one, or answers one *)
Definition speaks_of (p : N) (e : cevent) : Prop :=
  match e with UConnect cn _ _ _ _ => cn.2 = p | _ => False end.
(** … and wants it: asks, or accepts *)
Definition wants (p : N) (e : cevent) : Prop :=
  match e with UConnect cn _ _ _ resp => cn.2 = p ∧ resp ≠ Some false | _ => False end.
(** … with password [w] *)
Definition speaks_with (p w : N) (e : cevent) : Prop :=
  match e with UConnect cn _ _ pw _ => cn.2 = p ∧ w = default 0 pw | _ => False end.

Definition channel_for (p : N) (o : cout) : Prop := match o with Channel _ _ q _ _ => q = p | _ => False end.
Global Instance channel_for_dec p o : Decision (channel_for p o).
Proof. destruct o; cbn; apply _. Defined.
(** the connection that is handed to the user *)
Fixpoint handed (p : N) (os : list cout) : option (N * skey) :=
  match os with
  | [] => None
  | Channel _ _ q id k :: rest => if q =? p then Some (id, k) else handed p rest
  | _ :: rest => handed p rest
  end.

(** what may end connection [id] with [p] at the client of [me]: a disconnect that names it or names none, the end of its
    stream, the user *)
Definition ends (me p id : N) (e : cevent) : bool :=
  match e with
  | Signal _ _ _ (GDisconnect cn token _) =>
      bool_decide ((if cn.1 =? me then cn.2 else cn.1) = p) &&
      match token with None => true | Some t => t =? id end
  | Dropped q j | StreamEnded q j => (q =? p) && (j =? id)
  | _ => false
  end.

(** the connection with [p] the user was last given, if nothing has ended it *)
Definition after_event (me p : N) (cur : option (N * skey)) (x : cevent * list cout) : option (N * skey) :=
  match handed p x.2 with
  | Some h => Some h
  | None => match cur with Some (id, k) => if ends me p id x.1 then None else cur | None => None end
  end.
Definition current (me p : N) (tr : ctrace) : option (N * skey) := foldl (after_event me p) None tr.

(** the connection with [p] the user was last given *)
Definition latest (p : N) (tr : ctrace) : option (N * skey) :=
  foldl (λ cur x, match handed p x.2 with Some h => Some h | None => cur end) None tr.

(** the ticket of what the user last sent about [p], unless a channel with [p] was given since *)
Definition open_ticket (p : N) (tr : ctrace) : option N :=
  foldl (λ cur x,
    match handed p x.2 with
    | Some _ => None
    | None => match x.1 with UConnect cn tk _ _ _ => if cn.2 =? p then Some tk else cur | _ => cur end
    end) None tr.

(** a handshake begins: the peer's acceptance, its request, or its first stage *)
Definition begins (p : N) (e : cevent) : Prop :=
  match e with
  | Signal _ _ _ (GConnect cn (Some true) _) | Signal _ _ _ (GConnect cn None _) | Signal _ _ _ (GStage0 cn _ _ _) => cn.1 = p
  | _ => False
  end.
(** no handshake with [p] begins before the user has spoken of [p] *)
Definition bidden (p : N) (es : list cevent) : Prop :=
  ∀ i e, es !! i = Some e → begins p e → ∃ j d, (j < i)%nat ∧ es !! j = Some d ∧ speaks_of p d.

(** a stream of [p] has ended since the user last spoke of [p] *)
Definition stream_since (p : N) (tr : ctrace) : bool :=
  foldl (λ b x, match x.1 with
                | UConnect cn _ _ _ _ => if cn.2 =? p then false else b
                | StreamEnded q _ => if q =? p then true else b
                | _ => b
                end) false tr.
(** how often the keys of [p] have moved on since the user was last given a channel with [p] *)
Definition rekeys (p : N) (tr : ctrace) : N :=
  foldl (λ n x, match handed p x.2 with
                | Some _ => 0
                | None => match x.1 with Rekeyed q => if q =? p then n + 1 else n | _ => n end
                end) 0 tr.

(** the numbers the client has drawn for handshakes with [p] since the user was last given a channel with [p] *)
Definition drawn (p : N) (tr : ctrace) : list N :=
  foldl (λ l x,
    match handed p x.2 with
    | Some _ => []
    | None => match x.1 with
              | Signal _ rnd _ (GConnect cn (Some true) _) | Signal _ rnd _ (GStage0 cn _ _ _) => if cn.1 =? p then rnd :: l else l
              | _ => l
              end
    end) [] tr.

(** Two users who want a connection with each other *)

(** the user of [c] has spoken of [p] under ticket [t] with password [w], and has no connection with it *)
Definition ready (c : client) (p t w : N) : Prop :=
  (∃ set, cl_tries c !! p = Some (t, set)) ∧ cl_pws c !! p = Some w ∧
  ∀ v, cl_links c !! p = Some v → vl_active v = false.
Definition is_channel (o : cout) : bool := match o with Channel _ _ _ _ _ => true | _ => false end.
Definition channels (os : list cout) : list cout := filter (λ o, is_channel o = true) os.
Definition under_way (w : world) (who : bool) : list (N * csig) := if who then wd_down0 w else wd_down1 w.
(** nothing is under way *)
Definition quiet (w : world) : Prop := wd_down0 w = [] ∧ wd_down1 w = [].
(** nothing is stuck: whoever has something to take can take it *)
Definition flows (w : world) : Prop := ∀ who, under_way w who ≠ [] → is_Some (wstep w who).
(** either user has one channel, to the other, under their own ticket, and both with the same number and keys *)
Definition joined (w : world) (a b t0 t1 pw : N) : Prop :=
  ∃ id k, channels (wd_got0 w) = [Channel t0 a b id k] ∧ channels (wd_got1 w) = [Channel t1 b a id k] ∧ k.2 = pw.
