(** Model of the command hierarchy: node secrets, envelopes, assignments, and the
    hierarchy half of the group session state.

    Source: /repo/citadel_treekem/src/hierarchy.rs, hierarchy_member.rs,
    /repo/citadel_proto/src/proto/peer/group_cgka/hierarchy.rs and mod.rs.

    Simplifications: values instead of serialized bytes; a box that opens to bytes
    of the wrong length or to an unparsable assignment counts as not opening; the
    nonce of the flat wrap is a function of the content key and is left out; the
    map of ranks is walked in an unspecified order in the code (HashMap), here in
    the order of [map_to_list]; random values are parameters. *)
From stdpp Require Import prelude gmap.
From Verif Require Import Types_Model.
Local Open Scope N_scope.

(** ReadPolicy, citadel_types proto/mod.rs *)
Inductive read_policy := SuperiorOnly | BroadcastAudit.

(** hierarchy_member.rs 16-24 *)
Record hmember {sec : Type} := mk_hmember { hm_path : command_path; hm_secret : sec; hm_policy : read_policy }.
Arguments hmember : clear implicits. Arguments mk_hmember {sec}.

(** Cryptographic primitives *)
Record hprims := mk_hprims {
  hsec : Type; hpub : Type; hrnd : Type;
  kbox : Type; abox : Type; body : Type; fwrap : Type;
  keyed_hash : hsec → rstring → hsec;                 (* blake3::keyed_hash, hierarchy.rs 58 *)
  node_pk : hsec → hpub;                              (* hierarchy.rs 63-72, public part *)
  leaf_pk : hsec → hpub;                              (* treekem crypto.rs 37-40, public part *)
  kseal : hrnd → hpub → hsec → option kbox;           (* crypto.rs 44-48, of a content key *)
  kopen : hsec → kbox → option hsec;                  (* crypto.rs 51-54, key made from a node secret *)
  aseal : hrnd → hpub → hmember hsec → option abox;   (* the same, of an assignment *)
  aopen : hsec → abox → option (hmember hsec);        (* the same, key made from a leaf secret *)
  bseal : hsec → list N → body;                       (* crypto.rs sym_seal with the zero nonce *)
  bopen : hsec → body → option (list N);
  fseal : hsec → hsec → fwrap;                        (* sym_seal of a content key under the flat key *)
  fopen : hsec → fwrap → option hsec }.

Section Hierarchy.
  Context (H : hprims).
  Notation hsec := (hsec H).
  Notation hmember := (hmember hsec).

  (** hierarchy.rs 44-61 *)
  Definition derive_descendant_secret (s : hsec) (a d : command_path) : option hsec :=
    if negb (is_ancestor_of a d) then None
    else Some (foldl (keyed_hash H) s (drop (length a) d)).

  (** hierarchy.rs 77-97 *)
  Record envelope := mk_envelope {
    ev_sender : command_path; ev_body : body H; ev_hier : kbox H; ev_flat : option (fwrap H) }.

  (** hierarchy.rs 104-144 *)
  Definition env_seal (path : command_path) (node : hsec) (flat : option hsec) (pol : read_policy) (key : hsec) (r : hrnd H)
      (m : list N) : option envelope :=
    match kseal H r (node_pk H node) key with
    | None => None
    | Some wrap =>
        match pol, flat with
        | SuperiorOnly, _ => Some (mk_envelope path (bseal H key m) wrap None)
        | BroadcastAudit, None => None
        | BroadcastAudit, Some f => Some (mk_envelope path (bseal H key m) wrap (Some (fseal H f key)))
        end
    end.

  (** hierarchy.rs 148-160 and 172-181 *)
  Definition open_as_superior (e : envelope) (path : command_path) (s : hsec) : option (list N) :=
    match derive_descendant_secret s path (ev_sender e) with
    | None => None
    | Some s' => match kopen H s' (ev_hier e) with None => None | Some k => bopen H k (ev_body e) end
    end.

  (** hierarchy.rs 163-170 and 172-181 *)
  Definition open_as_member (e : envelope) (flat : hsec) : option (list N) :=
    match ev_flat e with
    | None => None
    | Some w => match fopen H flat w with None => None | Some k => bopen H k (ev_body e) end
    end.

  (** hierarchy_member.rs 29-35 *)
  Definition h_root (s : hsec) (pol : read_policy) : hmember := mk_hmember cp_root s pol.
  (** hierarchy_member.rs 39-47 *)
  Definition derive_descendant (m : hmember) (p : command_path) : option hmember :=
    match derive_descendant_secret (hm_secret m) (hm_path m) p with
    | None => None
    | Some s => Some (mk_hmember p s (hm_policy m))
    end.
  (** hierarchy_member.rs 73-90 *)
  Definition seal_message (m : hmember) (flat : option hsec) (key : hsec) (r : hrnd H) (text : list N) : option envelope :=
    env_seal (hm_path m) (hm_secret m) flat (hm_policy m) key r text.
  (** hierarchy_member.rs 94-110 *)
  Definition open_message (m : hmember) (flat : option hsec) (e : envelope) : option (list N) :=
    if is_ancestor_of (hm_path m) (ev_sender e) then open_as_superior e (hm_path m) (hm_secret m)
    else match flat with
         | Some f => open_as_member e f
         | None => None
         end.

  (** group_cgka/mod.rs 28-48: the hierarchy fields.  [hs_flat] is the current
      encryption secret of the group, [None] before the welcome. *)
  Inductive hmode := Flat | Command (pol : read_policy).
  Record hstate := mk_hstate {
    hs_owner : bool; hs_leaf : hsec; hs_mode : hmode; hs_self : option hmember;
    hs_ranks : gmap N command_path; hs_flat : option hsec }.

  (** mod.rs 68-89 *)
  Definition h_new_owner (mode : hmode) (ranks : gmap N command_path) (leaf root flat : hsec) : hstate :=
    match mode with
    | Flat => mk_hstate true leaf Flat None ∅ (Some flat)
    | Command pol => mk_hstate true leaf mode (Some (h_root root pol)) ranks (Some flat)
    end.
  (** mod.rs 91-114; the mode is the one of the invitation *)
  Definition h_new_joiner (mode : hmode) (leaf : hsec) : hstate := mk_hstate false leaf mode None ∅ None.

  (** hierarchy.rs 14-27: [Err] is [None], [Some None] is no assignment *)
  Definition assignment_for_joiner (st : hstate) (cid : N) (pk : hpub H) (r : hrnd H) : option (option (abox H)) :=
    match hs_self st with
    | None => Some None
    | Some own =>
        match hs_ranks st !! cid with
        | None => Some None
        | Some p =>
            match derive_descendant own p with
            | None => None
            | Some m => match aseal H r pk m with None => None | Some b => Some (Some b) end
            end
        end
    end.

  (** hierarchy.rs 32-42 *)
  Definition apply_assignment (st : hstate) (b : abox H) : option hstate :=
    match aopen H (hs_leaf st) b with
    | None => None
    | Some m =>
        Some (mk_hstate (hs_owner st) (hs_leaf st)
                (if hs_owner st then hs_mode st else Command (hm_policy m)) (Some m) (hs_ranks st) (hs_flat st))
    end.

  Definition with_ranks (st : hstate) (rk : gmap N command_path) : hstate :=
    mk_hstate (hs_owner st) (hs_leaf st) (hs_mode st) (hs_self st) rk (hs_flat st).
  Definition with_self (st : hstate) (m : hmember) : hstate :=
    mk_hstate (hs_owner st) (hs_leaf st) (hs_mode st) (Some m) (hs_ranks st) (hs_flat st).

  (** hierarchy.rs 46-70; [leaf_of] is the leaf key of a member in the tree *)
  Definition promote (st : hstate) (leaf_of : N → option (hpub H)) (cid : N) (p : command_path) (r : hrnd H)
    : hstate * option (option (abox H)) :=
    if negb (hs_owner st) then (st, None)
    else match hs_self st with
         | None => (st, None)
         | Some own =>
             match derive_descendant own p with
             | None => (st, None)
             | Some m =>
                 let st' := with_ranks st (<[cid := p]> (hs_ranks st)) in
                 match leaf_of cid with
                 | None => (st', Some None)
                 | Some pk => match aseal H r pk m with None => (st', None) | Some b => (st', Some (Some b)) end
                 end
             end
         end.

  (** hierarchy.rs 96-113: the loop over the ranks *)
  Fixpoint reassign (root : hmember) (leaf_of : N → option (hpub H)) (rs : N → hrnd H) (l : list (N * command_path))
    : option (list (N * abox H)) :=
    match l with
    | [] => Some []
    | (cid, p) :: rest =>
        match leaf_of cid with
        | None => reassign root leaf_of rs rest
        | Some pk =>
            match derive_descendant root p with
            | None => None
            | Some m =>
                match aseal H (rs cid) pk m with
                | None => None
                | Some b => match reassign root leaf_of rs rest with None => None | Some bs => Some ((cid, b) :: bs) end
                end
            end
        end
    end.
  (** hierarchy.rs 77-131; [seg] is the segment ["_demoted_{cid}"] of l.92.  The
      commit at the end is [s_rekey] of GroupSession_Model.v; here only the new
      flat key is passed in. *)
  Definition demote (st : hstate) (leaf_of : N → option (hpub H)) (cid : N) (seg : rstring) (root flat : hsec) (rs : N → hrnd H)
    : hstate * option (list (N * abox H)) :=
    if negb (hs_owner st) then (st, None)
    else match hs_mode st with
         | Flat => (st, None)
         | Command pol =>
             let ranks := <[cid := [seg]]> (hs_ranks st) in
             let st1 := with_ranks st ranks in
             match reassign (h_root root pol) leaf_of rs (map_to_list ranks) with
             | None => (st1, None)
             | Some bs =>
                 let st2 := with_self st1 (h_root root pol) in
                 match hs_flat st2 with
                 | None => (st2, None)
                 | Some _ => (mk_hstate (hs_owner st2) (hs_leaf st2) (hs_mode st2) (hs_self st2) (hs_ranks st2) (Some flat), Some bs)
                 end
             end
         end.

  (** hierarchy.rs 130-138 *)
  Definition flat_key_for_policy (st : hstate) : option hsec :=
    match hs_mode st with Command BroadcastAudit => hs_flat st | _ => None end.
  (** hierarchy.rs 141-149; a flat group takes the path of Tree_Model ([None] here
      stands for an error only when the mode is not [Flat], mod.rs 217-231) *)
  Definition encrypt_dhe (st : hstate) (key : hsec) (r : hrnd H) (text : list N) : option envelope :=
    match hs_self st with
    | None => None
    | Some m => seal_message m (flat_key_for_policy st) key r text
    end.
  (** hierarchy.rs 152-159 *)
  Definition decrypt_dhe (st : hstate) (e : envelope) : option (list N) :=
    match hs_self st with
    | None => None
    | Some m => open_message m (flat_key_for_policy st) e
    end.
End Hierarchy.
