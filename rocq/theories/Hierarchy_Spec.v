(** Specification for the command hierarchy (C25, C59, C60). *)
From stdpp Require Import prelude gmap.
From Verif Require Import Types_Model Hierarchy_Model.
Local Open Scope N_scope.

(** laws of the primitives: the right key opens *)
Record hlaws (H : hprims) := mk_hlaws {
  hl_k : ∀ s r k, ∃ b, kseal H r (node_pk H s) k = Some b ∧ kopen H s b = Some k;
  hl_a : ∀ s r m, ∃ b, aseal H r (leaf_pk H s) m = Some b ∧ aopen H s b = Some m;
  hl_b : ∀ k m, bopen H k (bseal H k m) = Some m;
  hl_f : ∀ f k, fopen H f (fseal H f k) = Some k }.

(** ** Symbolic secrets *)
Inductive hterm :=
| HLeaf (n : N)                       (* the leaf secret of the n-th joining member *)
| HRoot (n : N)                       (* the n-th random root secret *)
| HKey (n : N)                        (* the n-th random content key *)
| HGroup (n : N)                      (* the n-th encryption secret of the flat group *)
| HOwn (n : N)                        (* random values of the attacker *)
| HChild (t : hterm) (seg : rstring).
#[global] Instance hterm_eq_dec : EqDecision hterm.
Proof. solve_decision. Defined.
Inductive hkey := NodePk (t : hterm) | LeafPk (t : hterm).
Inductive hbox := KBox (k : hkey) (t : hterm).
Inductive hasg := ABox (k : hkey) (m : hmember hterm).
Inductive hbody := Body (k : hterm) (m : list N).
Inductive hwrap := FWrap (f k : hterm).

Definition hsym : hprims :=
  mk_hprims hterm hkey unit hbox hasg hbody hwrap
    HChild NodePk LeafPk
    (λ _ k t, Some (KBox k t))
    (λ s b, match b with KBox (NodePk s') t => if bool_decide (s = s') then Some t else None | _ => None end)
    (λ _ k m, Some (ABox k m))
    (λ s b, match b with ABox (LeafPk s') m => if bool_decide (s = s') then Some m else None | _ => None end)
    Body (λ k b, let 'Body k' m := b in if bool_decide (k = k') then Some m else None)
    FWrap (λ f b, let 'FWrap f' k := b in if bool_decide (f = f') then Some k else None).

Lemma hsym_laws : hlaws hsym.
Proof.
  split.
  - intros s r k. eexists. split; [reflexivity|]. cbn. by rewrite bool_decide_true.
  - intros s r m. eexists. split; [reflexivity|]. cbn. by rewrite bool_decide_true.
  - intros k m. cbn. by rewrite bool_decide_true.
  - intros f k. cbn. by rewrite bool_decide_true.
Qed.

(** the secret of a unit in the n-th generation of the hierarchy *)
Definition unit_secret (n : N) (p : command_path) : hterm := foldl HChild (HRoot n) p.

(** what everybody can see on the wire *)
Inductive wire := WAssign (b : hasg) | WMsg (e : envelope hsym).

(** what an attacker can compute from the leaf secrets of the members in [bad], the
    flat group keys in [flats] and the wire *)
Inductive known (ws : list wire) (bad flats : N → Prop) : hterm → Prop :=
| kn_leaf n : bad n → known ws bad flats (HLeaf n)
| kn_flat n : flats n → known ws bad flats (HGroup n)
| kn_own n : known ws bad flats (HOwn n)
| kn_child t seg : known ws bad flats t → known ws bad flats (HChild t seg)
| kn_assign s m : WAssign (ABox (LeafPk s) m) ∈ ws → known ws bad flats s → known ws bad flats (hm_secret m)
| kn_hier s k e : WMsg e ∈ ws → ev_hier hsym e = KBox (NodePk s) k → known ws bad flats s → known ws bad flats k
| kn_wrap f k e : WMsg e ∈ ws → ev_flat hsym e = Some (FWrap f k) → known ws bad flats f → known ws bad flats k.

(** ** A group with an owner and members that follow the protocol *)

(** [HJoin]: an account joins; [HKick]: it is removed from the tree and the flat
    key changes; [HSend]: a member ([None]: the owner) sends a message *)
Inductive hop :=
| HJoin (cid n : N)
| HKick (cid flat : N)
| HPromote (cid : N) (p : command_path)
| HDemote (cid : N) (seg : rstring) (root flat : N)
| HSend (who : option N) (key : N) (text : list N).

(** members by account, and the wire *)
Record hworld := mk_hworld { hw_owner : hstate hsym; hw_members : gmap N (hstate hsym); hw_wire : list wire }.

Definition leaf_of_world (w : hworld) (cid : N) : option hkey :=
  LeafPk ∘ hs_leaf hsym <$> hw_members w !! cid.
(** a member receives its assignment *)
Definition receive (ms : gmap N (hstate hsym)) (cid : N) (b : hasg) : gmap N (hstate hsym) :=
  match ms !! cid with
  | Some st => match apply_assignment hsym st b with Some st' => <[cid := st']> ms | None => ms end
  | None => ms
  end.
(** everybody has the same flat key *)
Definition set_flat (f : N) (st : hstate hsym) : hstate hsym :=
  mk_hstate hsym (hs_owner hsym st) (hs_leaf hsym st) (hs_mode hsym st) (hs_self hsym st) (hs_ranks hsym st) (Some (HGroup f)).

Definition hstep (w : hworld) (o : hop) : hworld :=
  match o with
  | HJoin cid n =>
      let st := mk_hstate hsym false (HLeaf n) (hs_mode hsym (hw_owner w)) None ∅ (hs_flat hsym (hw_owner w)) in
      match assignment_for_joiner hsym (hw_owner w) cid (LeafPk (HLeaf n)) tt with
      | Some (Some b) => mk_hworld (hw_owner w) (receive (<[cid := st]> (hw_members w)) cid b) (WAssign b :: hw_wire w)
      | Some None => mk_hworld (hw_owner w) (<[cid := st]> (hw_members w)) (hw_wire w)
      | None => w
      end
  | HKick cid f =>
      mk_hworld (set_flat f (hw_owner w)) (set_flat f <$> delete cid (hw_members w)) (hw_wire w)
  | HPromote cid p =>
      match promote hsym (hw_owner w) (leaf_of_world w) cid p tt with
      | (o', Some (Some b)) => mk_hworld o' (receive (hw_members w) cid b) (WAssign b :: hw_wire w)
      | (o', _) => mk_hworld o' (hw_members w) (hw_wire w)
      end
  | HDemote cid seg root f =>
      match demote hsym (hw_owner w) (leaf_of_world w) cid seg (HRoot root) (HGroup f) (λ _, tt) with
      | (o', Some bs) =>
          mk_hworld o' (set_flat f <$> foldl (λ ms '(c, b), receive ms c b) (hw_members w) bs) ((WAssign ∘ snd <$> bs) ++ hw_wire w)
      | (o', None) => mk_hworld o' (hw_members w) (hw_wire w)
      end
  | HSend who key text =>
      match (match who with None => Some (hw_owner w) | Some cid => hw_members w !! cid end) with
      | Some st =>
          match encrypt_dhe hsym st (HKey key) tt text with
          | Some e => mk_hworld (hw_owner w) (hw_members w) (WMsg e :: hw_wire w)
          | None => w
          end
      | None => w
      end
  end.
Definition hrun (w : hworld) (os : list hop) : hworld := foldl hstep w os.
Definition hfounded (pol : read_policy) (ranks : gmap N command_path) (ownleaf root flat : N) : hworld :=
  mk_hworld (h_new_owner hsym (Command pol) ranks (HLeaf ownleaf) (HRoot root) (HGroup flat)) ∅ [].

(** ** Who was granted what: a table kept independently of the keys.
    State: current generation and flat key, rank of each account, the joined member of each account. *)
Record book := mk_book { bk_gen : N; bk_flat : N; bk_ranks : gmap N command_path; bk_joined : gmap N N;
  bk_grants : list (N * N * command_path)  (* member, generation, path *) }.
Definition grant (b : book) (cid : N) : list (N * N * command_path) :=
  match bk_joined b !! cid, bk_ranks b !! cid with
  | Some n, Some p => [(n, bk_gen b, p)]
  | _, _ => []
  end.
Definition bk_step (b : book) (o : hop) : book :=
  match o with
  | HJoin cid n =>
      let b' := mk_book (bk_gen b) (bk_flat b) (bk_ranks b) (<[cid := n]> (bk_joined b)) (bk_grants b) in
      mk_book (bk_gen b') (bk_flat b') (bk_ranks b') (bk_joined b') (grant b' cid ++ bk_grants b')
  | HKick cid f => mk_book (bk_gen b) f (bk_ranks b) (delete cid (bk_joined b)) (bk_grants b)
  | HPromote cid p =>
      let b' := mk_book (bk_gen b) (bk_flat b) (<[cid := p]> (bk_ranks b)) (bk_joined b) (bk_grants b) in
      mk_book (bk_gen b') (bk_flat b') (bk_ranks b') (bk_joined b') (grant b' cid ++ bk_grants b')
  | HDemote cid seg root f =>
      let b' := mk_book root f (<[cid := [seg]]> (bk_ranks b)) (bk_joined b) (bk_grants b) in
      mk_book (bk_gen b') (bk_flat b') (bk_ranks b') (bk_joined b')
        (concat (grant b' <$> (map_to_list (bk_ranks b')).*1) ++ bk_grants b')
  | HSend _ _ _ => b
  end.
Definition bk_run (b : book) (os : list hop) : book := foldl bk_step b os.
Definition bk_init (ranks : gmap N command_path) (root flat : N) : book := mk_book root flat ranks ∅ [].
Definition book_after (ranks : gmap N command_path) (root flat : N) (os : list hop) : book := bk_run (bk_init ranks root flat) os.
(** the unit a sender belongs to; the owner is the top *)
Definition unit_of (b : book) (who : option N) : option command_path :=
  match who with
  | None => Some cp_root
  | Some cid => match bk_joined b !! cid with Some _ => bk_ranks b !! cid | None => None end
  end.
(** somebody in [bad] was granted, in generation [g], a unit that is [p] or a superior of [p] *)
Definition superior (b : book) (bad : N → Prop) (g : N) (p : command_path) : Prop :=
  ∃ n q x, bad n ∧ (n, g, q) ∈ bk_grants b ∧ p = q ++ x.

(** the root secrets and the content keys drawn in a history *)
Definition roots (os : list hop) : list N := omap (λ o, match o with HDemote _ _ r _ => Some r | _ => None end) os.
Definition keys (os : list hop) : list N := omap (λ o, match o with HSend _ k _ => Some k | _ => None end) os.
