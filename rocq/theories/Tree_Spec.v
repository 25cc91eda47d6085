(** Specifications for the group key agreement. *)
From stdpp Require Import prelude gmap.
From Verif Require Import Tree_Model.
Local Open Scope N_scope.

(** ** The left-balanced binary tree over consecutive slots (for C19) *)

Inductive bt := BLeaf (i : N) | BNode (l r : bt).

Fixpoint leaves (t : bt) : list N :=
  match t with BLeaf i => [i] | BNode l r => leaves l ++ leaves r end.

(** [LB a n t]: [t] is the left-balanced tree over the slots a, …, a+n-1: the
    left part is full and its size is the largest power of two below n *)
Inductive LB : N → N → bt → Prop :=
| LB_one a : LB a 1 (BLeaf a)
| LB_split a n k l r :
    2 ^ k < n → n <= 2 * 2 ^ k → LB a (2 ^ k) l → LB (a + 2 ^ k) (n - 2 ^ k) r →
    LB a n (BNode l r).

(** Nodes are numbered in-order: the number of a node is the number of nodes
    met before it when walking the whole tree from left to right. *)
Inductive inorder : bt → list bt → Prop :=
| inorder_leaf i : inorder (BLeaf i) [BLeaf i]
| inorder_node l r ls rs : inorder l ls → inorder r rs →
    inorder (BNode l r) (ls ++ BNode l r :: rs).
Definition numbered (t s : bt) (x : N) : Prop :=
  ∃ ls, inorder t ls ∧ ls !! N.to_nat x = Some s.

(** [up t i p]: [p] lists, bottom-up, the ancestors of slot [i] in [t], each
    with its child that does not contain [i] *)
Inductive up : bt → N → list (bt * bt) → Prop :=
| up_here i : up (BLeaf i) i []
| up_left l r i p : up l i p → up (BNode l r) i (p ++ [(BNode l r, r)])
| up_right l r i p : up r i p → up (BNode l r) i (p ++ [(BNode l r, l)]).

(** [s] is a subtree of [t] *)
Inductive subtree (s : bt) : bt → Prop :=
| sub_here : subtree s s
| sub_left l r : subtree s l → subtree s (BNode l r)
| sub_right l r : subtree s r → subtree s (BNode l r).

(** ** A group of members who all follow the protocol (for C20, C21) *)

Section World.
  Context (P : prims).
  Notation group := (group P).

  (** Laws of the primitives: what is sealed to the public key of a secret is
      opened by that secret; messages open under the key they were sealed with *)
  Record laws := mk_laws {
    law_open : ∀ s r m, ∃ c, seal P r (pk_of P s) m = Some c ∧ hopen P s c = Some m;
    law_app : ∀ k i g m, app_open P k i g (app_seal P k i g m) = Some m }.

  (** One commit of the history.  [who] is the place of the committer in the
      list of members. *)
  Inductive op :=
  | OpUpdate (who : nat) (fresh : secret P) (rs : nat → nat → rnd P)
  | OpAdd (who : nat) (fresh : secret P) (rs : nat → nat → rnd P)
      (cid : N) (joiner : secret P) (wr : rnd P)
  | OpRemove (who : nat) (fresh : secret P) (rs : nat → nat → rnd P) (target : N).

  (** every member of a list processes a commit; [None] if one of them fails *)
  Fixpoint deliver (c : commit (pub P) (ctext P)) (ms : list group) : option (list group) :=
    match ms with
    | [] => Some []
    | g :: rest =>
        match process_commit P g c, deliver c rest with
        | (g', Ok _), Some rest' => Some (g' :: rest')
        | _, _ => None
        end
    end.

  (** One step of the history: the committer makes the commit, all the other
      members (except a removed one) process it, a joiner joins by the welcome.
      A commit by nobody, or a removal of oneself or of a slot outside the tree,
      is not made.  [None] if the committer, a member or the joiner fails. *)
  Definition step (ms : list group) (o : op) : option (list group) :=
    match o with
    | OpUpdate who fresh rs =>
        match ms !! who with
        | None => Some ms
        | Some g =>
            match commit_update P g fresh rs with
            | (g', Ok c) =>
                match deliver c (delete who ms) with
                | Some rest => Some (g' :: rest)
                | None => None
                end
            | _ => None
            end
        end
    | OpAdd who fresh rs cid joiner wr =>
        match ms !! who with
        | None => Some ms
        | Some g =>
            match add_member P g (key_package P cid joiner) fresh rs wr with
            | (g', Ok (c, w)) =>
                match join_from_welcome P w joiner, deliver c (delete who ms) with
                | Ok gj, Some rest => Some (g' :: gj :: rest)
                | _, _ => None
                end
            | _ => None
            end
        end
    | OpRemove who fresh rs target =>
        match ms !! who with
        | None => Some ms
        | Some g =>
            if bool_decide (target = g_leaf P g) || (num_leaves P (g_tree P g) <=? target)
            then Some ms
            else match remove_member P g target fresh rs with
                 | (g', Ok c) =>
                     match deliver c (filter (fun m => g_leaf P m ≠ target) (delete who ms)) with
                     | Some rest => Some (g' :: rest)
                     | None => None
                     end
                 | _ => None
                 end
        end
    end.

  Fixpoint run (ms : list group) (os : list op) : option (list group) :=
    match os with
    | [] => Some ms
    | o :: rest => match step ms o with Some ms' => run ms' rest | None => None end
    end.

  (** a group starts with its founder alone *)
  Definition founded (cid : N) (s : secret P) : list group := [create P (key_package P cid s) s].

  (** all members see the same group *)
  Definition same_view (g1 g2 : group) : Prop :=
    g_tree P g1 = g_tree P g2 ∧ g_epoch P g1 = g_epoch P g2 ∧
    g_transcript P g1 = g_transcript P g2 ∧ g_secrets P g1 = g_secrets P g2.
  Definition agreement (ms : list group) : Prop :=
    (∀ g1 g2, g1 ∈ ms → g2 ∈ ms → same_view g1 g2) ∧ NoDup (g_leaf P <$> ms).

  (** [live t i]: slot [i] is occupied *)
  Definition live (t : list (node (pub P))) (i : N) : Prop :=
    ∃ l, get P t (leaf_to_node i) = Some (Leaf l).

  (** what each kind of commit does to the set of occupied slots *)
  Definition slots_after (ms ms' : list group) (o : op) : Prop :=
    match o with
    | OpUpdate who _ _ => g_leaf P <$> ms' ≡ₚ g_leaf P <$> ms
    | OpAdd who _ _ cid joiner _ =>
        if decide (is_Some (ms !! who))
        then ∃ j, g_leaf P <$> ms' ≡ₚ j :: (g_leaf P <$> ms) ∧
          ∀ g, g ∈ ms' → ∃ l, get P (g_tree P g) (leaf_to_node j) = Some (Leaf l) ∧ l_cid l = cid
        else ms' = ms
    | OpRemove who _ _ target =>
        match ms !! who with
        | Some g => g_leaf P <$> ms' ≡ₚ filter (λ i, i ≠ target ∨ i = g_leaf P g) (g_leaf P <$> ms)
        | None => ms' = ms
        end
    end.

  (** the commit is made (see [step]) *)
  Definition effective (ms : list group) (o : op) : Prop :=
    match o with
    | OpUpdate who _ _ | OpAdd who _ _ _ _ _ => is_Some (ms !! who)
    | OpRemove who _ _ target =>
        ∃ g, ms !! who = Some g ∧ target ≠ g_leaf P g ∧ target < num_leaves P (g_tree P g)
    end.

  (** A history with application messages (for C24): commits, and messages sent by
      the member at place [who] of the list *)
  Inductive hop := HCommit (o : op) | HSend (who : nat) (m : list N).
  (** the log pairs every message sent with its plaintext *)
  Definition hstep (st : list group * list (app_message * list N)) (h : hop)
    : option (list group * list (app_message * list N)) :=
    match h with
    | HCommit o => match step st.1 o with Some ms' => Some (ms', st.2) | None => None end
    | HSend who m =>
        match st.1 !! who with
        | None => Some st
        | Some g => let '(g', a) := encrypt_message P g m in Some (<[who := g']> st.1, st.2 ++ [(a, m)])
        end
    end.
  Fixpoint hrun (st : list group * list (app_message * list N)) (hs : list hop)
    : option (list group * list (app_message * list N)) :=
    match hs with
    | [] => Some st
    | h :: rest => match hstep st h with Some st' => hrun st' rest | None => None end
    end.
  (** the messages of one sender in one epoch, in the order sent *)
  Definition sent_by (e i : N) (log : list (app_message * list N)) : list app_message :=
    filter (fun a => am_epoch a = e ∧ am_sender a = i) log.*1.

  (** [holds g r]: member [g] knows the secret behind the public key of node [r] *)
  Definition holds (g : group) (r : N) : Prop :=
    ∃ s nd, g_own P g !! r = Some s ∧ get P (g_tree P g) r = Some nd ∧
            kem_public P nd = Some (pk_of P s).
End World.

(** [under x i]: slot [i] is in the subtree of node [x].  In a complete tree the
    j-th node of height k has the number j·2^(k+1) + 2^k - 1 and stands above the
    slots j·2^k, …, (j+1)·2^k - 1 (for C20) *)
Definition under (x i : N) : Prop :=
  ∃ k j, x = j * 2 ^ (k + 1) + (2 ^ k - 1) ∧ j * 2 ^ k <= i ∧ i < (j + 1) * 2 ^ k.
