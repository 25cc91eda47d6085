(** Symbolic cryptography for the group key agreement (for C20 and C22): secrets
    are terms, and an attacker can compute exactly what the rules of [known] give. *)
From stdpp Require Import prelude gmap.
From Verif Require Import Tree_Model Tree_Spec.
Local Open Scope N_scope.

#[global] Instance label_eq_dec : EqDecision label.
Proof. solve_decision. Defined.

(** [TFresh n] is the n-th random secret; the epoch secret depends on the root
    secret, the previous init secret and the transcript, here the number of
    commits (leaving the rest of the transcript out only makes more terms equal) *)
Inductive term :=
| TZero
| TFresh (n : N)
| TDerive (t : term)
| TKdf (root init : term) (h : N)
| TExpand (l : label) (t : term).
#[global] Instance term_eq_dec : EqDecision term.
Proof. solve_decision. Defined.

(** public keys and sealed boxes name the secret they belong to *)
Inductive pkey := Pk (s : term).
Inductive box := Box (k : pkey) (m : list term).

Definition sym : prims :=
  mk_prims term pkey box N unit
    TDerive Pk (fun _ k m => Some (Box k m))
    (fun s b => let 'Box (Pk s') m := b in if bool_decide (s = s') then Some m else None)
    TZero 0 (fun h _ => h + 1) TKdf TExpand
    (fun _ _ _ m => m) (fun _ _ _ m => Some m).

Lemma sym_laws : laws sym.
Proof.
  split.
  - intros s r m. eexists. split; [reflexivity|]. cbn. by rewrite bool_decide_true.
  - done.
Qed.

(** ** Histories with names

    Every member is named by the number of the random secret it came with
    (founder and joiners); a member that is removed and added again is a new one. *)

Notation sgroup := (group sym).

(** the names after a commit, in the order of [step] *)
Definition names_after (ws : list (N * sgroup)) (o : op sym) : list N :=
  match o with
  | OpUpdate _ who _ _ =>
      match ws !! who with Some (n, _) => n :: (delete who ws).*1 | None => ws.*1 end
  | OpAdd _ who _ _ _ joiner _ =>
      match ws !! who, joiner with
      | Some (n, _), TFresh j => n :: j :: (delete who ws).*1
      | _, _ => ws.*1
      end
  | OpRemove _ who _ _ target =>
      match ws !! who with
      | Some (n, g) =>
          if bool_decide (target = g_leaf sym g) || (num_leaves sym (g_tree sym g) <=? target)
          then ws.*1
          else n :: (filter (fun p => g_leaf sym p.2 ≠ target) (delete who ws)).*1
      | None => ws.*1
      end
  end.

(** the boxes of a commit and of a welcome *)
Definition boxes (c : commit (pub sym) (ctext sym)) : list box :=
  concat (pn_cts <$> up_nodes (cm_path c)).

(** what is sent over the network for a commit *)
Definition traffic (ws : list (N * sgroup)) (o : op sym) : list box :=
  match o with
  | OpUpdate _ who fresh rs =>
      match ws !! who with
      | Some (_, g) => match (commit_update sym g fresh rs).2 with Ok c => boxes c | _ => [] end
      | None => []
      end
  | OpAdd _ who fresh rs cid joiner wr =>
      match ws !! who with
      | Some (_, g) =>
          match (add_member sym g (key_package sym cid joiner) fresh rs wr).2 with
          | Ok (c, w) => w_sealed sym w :: boxes c
          | _ => []
          end
      | None => []
      end
  | OpRemove _ who fresh rs target =>
      match ws !! who with
      | Some (_, g) =>
          if bool_decide (target = g_leaf sym g) || (num_leaves sym (g_tree sym g) <=? target) then []
          else match (remove_member sym g target fresh rs).2 with Ok c => boxes c | _ => [] end
      | None => []
      end
  end.

(** one moment of the history: the members with their names and states, and what
    was sent to get there *)
Record moment := mk_moment { at_members : list (N * sgroup); at_sent : list box }.

Fixpoint moments (ws : list (N * sgroup)) (os : list (op sym)) : list moment :=
  match os with
  | [] => []
  | o :: rest =>
      match step sym ws.*2 o with
      | Some ms' =>
          let ws' := zip (names_after ws o) ms' in
          mk_moment ws' (traffic ws o) :: moments ws' rest
      | None => []
      end
  end.
Definition history (cid f0 : N) (os : list (op sym)) : list moment :=
  let ws := [(f0, create sym (key_package sym cid (TFresh f0)) (TFresh f0))] in
  mk_moment ws [] :: moments ws os.

(** the random numbers used by a commit; an honest history uses each once *)
Definition randoms (o : op sym) : list term :=
  match o with
  | OpUpdate _ _ fresh _ => [fresh]
  | OpAdd _ _ fresh _ _ joiner _ => [fresh; joiner]
  | OpRemove _ _ fresh _ _ => [fresh]
  end.
Definition honest (f0 : N) (os : list (op sym)) (ns : list N) : Prop :=
  concat (randoms <$> os) = TFresh <$> ns ∧ NoDup (f0 :: ns).

(** everything a member's state contains *)
Definition state_secrets (g : sgroup) : list term :=
  (map_to_list (g_own sym g)).*2 ++
  [es_epoch sym (g_secrets sym g); es_encryption sym (g_secrets sym g);
   es_confirmation sym (g_secrets sym g); es_membership sym (g_secrets sym g);
   es_init sym (g_secrets sym g)].

(** the secrets of the epoch a member is in (the init secret, which only feeds
    the next epoch and is sent to joiners, is not one of them) *)
Definition live_secrets (g : sgroup) : list term :=
  [es_epoch sym (g_secrets sym g); es_encryption sym (g_secrets sym g); es_confirmation sym (g_secrets sym g);
   es_membership sym (g_secrets sym g)].

(** What an attacker can compute who has seen every message of the history [h],
    and every state ever held by the members in [bad], and makes random numbers
    of its own *)
Inductive known (h : list moment) (bad : N → Prop) (used : list N) : term → Prop :=
| k_zero : known h bad used TZero
| k_own n : n ∉ used → known h bad used (TFresh n)
| k_state mo n g s : mo ∈ h → (n, g) ∈ at_members mo → bad n → s ∈ state_secrets g → known h bad used s
| k_open mo s m x : mo ∈ h → Box (Pk s) m ∈ at_sent mo → known h bad used s → x ∈ m → known h bad used x
| k_derive s : known h bad used s → known h bad used (TDerive s)
| k_kdf a b n : known h bad used a → known h bad used b → known h bad used (TKdf a b n)
| k_expand l s : known h bad used s → known h bad used (TExpand l s).
