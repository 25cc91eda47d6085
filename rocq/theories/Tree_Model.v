(** Model of the group key agreement (ratchet tree).

    Sources (under /repo/citadel_treekem/src):
      tree/math.rs, tree/node.rs, tree/ratchet_tree.rs, path.rs, group.rs,
      schedule.rs, application.rs, commit.rs, keys.rs, welcome.rs, crypto.rs.

    Simplifications, for the whole file:
    - node and slot numbers are unbounded naturals instead of 32-bit words
      (the two agree while the tree has at most 2^31 slots);
    - cryptography is a record of functions ([prims]); key generation from a
      seed is a total function of the path secret; a byte string made of k
      32-byte secrets is the list of these k secrets;
    - [parent_hash] is always zero in the code, and [sig_public] / [signature]
      of a leaf are never read by this crate: the three fields are left out. *)
From stdpp Require Import prelude gmap.
From Verif Require Import Bytes.
Local Open Scope N_scope.

(** ** tree/math.rs *)

(** math.rs 17-22 *)
Definition log2 (x : N) : N := N.log2 x.

(** [u32::trailing_ones] *)
Fixpoint trailing_ones_pos (p : positive) : N :=
  match p with
  | xH => 1
  | xO _ => 0
  | xI q => 1 + trailing_ones_pos q
  end.
Definition trailing_ones (x : N) : N :=
  match x with 0 => 0 | Npos p => trailing_ones_pos p end.

(** math.rs 25-30 *)
Definition level (x : N) : N := if N.land x 1 =? 0 then 0 else trailing_ones x.

(** math.rs 33-39 *)
Definition node_width (n : N) : N := if n =? 0 then 0 else 2 * (n - 1) + 1.

(** math.rs 42-45 *)
Definition root (n : N) : N := N.shiftl 1 (log2 (node_width n)) - 1.

(** math.rs 48-50 *)
Definition leaf_to_node (i : N) : N := i * 2.

(** math.rs 53-55 *)
Definition is_leaf (x : N) : bool := N.land x 1 =? 0.

(** math.rs 58-62; only called on nodes of level at least 1 *)
Definition left (x : N) : N := N.lxor x (N.shiftl 1 (level x - 1)).

(** math.rs 66-75, the loop: go left until inside the tree.  [None]: the loop
    reached a leaf that is still outside (in the code: an overflow panic). *)
Fixpoint right_loop (fuel : nat) (w r : N) : option N :=
  if r <? w then Some r
  else match fuel with O => None | S f => right_loop f w (left r) end.
Definition right (x n : N) : option N :=
  right_loop (N.to_nat (level x)) (node_width n) (N.lxor x (N.shiftl 3 (level x - 1))).

(** math.rs 78-82 *)
Definition parent_step (x : N) : N :=
  let k := level x in
  let b := N.land (N.shiftr x (k + 1)) 1 in
  N.lxor (N.lor x (N.shiftl 1 k)) (N.shiftl b (k + 1)).

(** math.rs 86-94.  [None]: the climb never comes back into the tree.  (The
    level rises with every step; with 32-bit words the shift overflows at level
    31, so the code panics in a debug build and loops for ever otherwise.) *)
Fixpoint parent_loop (fuel : nat) (w p : N) : option N :=
  if p <? w then Some p
  else match fuel with O => None | S f => parent_loop f w (parent_step p) end.
Definition parent (x n : N) : option N :=
  parent_loop (N.to_nat (log2 (node_width n)) + 1) (node_width n) (parent_step x).

(** math.rs 97-104 *)
Definition sibling (x n : N) : option N :=
  match parent x n with
  | None => None
  | Some p => if x <? p then right p n else Some (left p)
  end.

(** math.rs 108-123 *)
Fixpoint direct_path_loop (fuel : nat) (n x : N) : option (list N) :=
  match fuel with
  | O => None
  | S f =>
      match parent x n with
      | None => None
      | Some p =>
          if p =? root n then Some [p]
          else match direct_path_loop f n p with
               | None => None
               | Some l => Some (p :: l)
               end
      end
  end.
Definition direct_path (i n : N) : option (list N) :=
  if leaf_to_node i =? root n then Some []
  else direct_path_loop (N.to_nat (log2 (node_width n)) + 1) n (leaf_to_node i).

(** math.rs 128-137 *)
Fixpoint copath_loop (fuel : nat) (n x : N) : option (list N) :=
  if x =? root n then Some []
  else match fuel with
       | O => None
       | S f =>
           match sibling x n, parent x n with
           | Some s, Some p =>
               match copath_loop f n p with
               | None => None
               | Some l => Some (s :: l)
               end
           | _, _ => None
           end
       end.
Definition copath (i n : N) : option (list N) :=
  copath_loop (N.to_nat (log2 (node_width n)) + 1) n (leaf_to_node i).

(** ** Messages (commit.rs, keys.rs, path.rs 18-42, welcome.rs) *)

Section Types.
  Context (pub ctext : Type).

  (** node.rs 8-20 *)
  Record leaf_node := mk_leaf { l_cid : N; l_pub : pub; l_index : N }.

  (** node.rs 23-41; default is [Blank] *)
  Inductive node :=
  | Leaf (l : leaf_node)
  | Parent (pk : pub) (unmerged : list N)
  | Blank.

  (** path.rs 26-31 *)
  Record path_node := mk_path_node { pn_pub : pub; pn_cts : list ctext }.

  (** path.rs 34-42 *)
  Record update_path := mk_update_path {
    up_leaf : N; up_leaf_pub : pub; up_nodes : list path_node }.

  (** commit.rs 9-18; a key package (keys.rs 10-14) is its leaf *)
  Inductive proposal :=
  | PAdd (l : leaf_node) (index : N)
  | PRemove (index : N).

  (** commit.rs 21-26 *)
  Record commit := mk_commit { cm_proposals : list proposal; cm_path : update_path }.
End Types.
Arguments mk_leaf {pub}. Arguments l_cid {pub}. Arguments l_pub {pub}. Arguments l_index {pub}.
Arguments Leaf {pub}. Arguments Parent {pub}. Arguments Blank {pub}.
Arguments mk_path_node {pub ctext}. Arguments pn_pub {pub ctext}. Arguments pn_cts {pub ctext}.
Arguments mk_update_path {pub ctext}. Arguments up_leaf {pub ctext}.
Arguments up_leaf_pub {pub ctext}. Arguments up_nodes {pub ctext}.
Arguments PAdd {pub}. Arguments PRemove {pub}.
Arguments mk_commit {pub ctext}. Arguments cm_proposals {pub ctext}. Arguments cm_path {pub ctext}.

(** ** Cryptographic primitives *)

(** the labels of schedule.rs 45-48 *)
Inductive label := LEncryption | LConfirmation | LMembership | LInit.

Record prims := mk_prims {
  secret : Type; pub : Type; ctext : Type; hash : Type; rnd : Type;
  derive : secret → secret;                         (* crypto.rs 14-16 *)
  pk_of : secret → pub;                             (* crypto.rs 37-40, public part *)
  seal : rnd → pub → list secret → option ctext;    (* crypto.rs 44-48 *)
  hopen : secret → ctext → option (list secret);    (* crypto.rs 51-54 with the secret
                                                       key made from a path secret *)
  zero_secret : secret;
  zero_hash : hash;
  transcript : hash → commit pub ctext → hash;      (* group.rs 270-276 *)
  epoch_kdf : secret → secret → hash → secret;      (* schedule.rs 38-43 *)
  expand : label → secret → secret;                 (* schedule.rs 55-59 *)
  app_seal : secret → N → N → list N → list N;      (* application.rs 48-67 *)
  app_open : secret → N → N → list N → option (list N) (* application.rs 70-77 *)
}.

(** Result of an operation: [Err] is an error returned to the caller, [Panic]
    stands for a panic or a call that does not return. *)
Inductive res (A : Type) := Ok (a : A) | Err | Panic.
Arguments Ok {A}. Arguments Err {A}. Arguments Panic {A}.

Section Tree.
  Context (P : prims).
  Notation leaf_node := (leaf_node (pub P)).
  Notation node := (node (pub P)).
  Notation tree := (list node).
  Notation commit := (commit (pub P) (ctext P)).
  Notation update_path := (update_path (pub P) (ctext P)).
  Notation path_node := (path_node (pub P) (ctext P)).

  (** ** tree/ratchet_tree.rs *)

  (** node.rs 44-46 *)
  Definition is_blank (nd : node) : bool := match nd with Blank => true | _ => false end.

  (** node.rs 49-55 *)
  Definition kem_public (nd : node) : option (pub P) :=
    match nd with
    | Leaf l => Some (l_pub l)
    | Parent pk _ => Some pk
    | Blank => None
    end.

  (** ratchet_tree.rs 52-54 and 57-59; [None]: index out of range (panic) *)
  Definition get (t : tree) (x : N) : option node := t !! N.to_nat x.
  Definition set_node (t : tree) (x : N) (nd : node) : option tree :=
    if (N.to_nat x <? length t)%nat then Some (<[N.to_nat x := nd]> t) else None.

  (** ratchet_tree.rs 15-23 *)
  Fixpoint from_leaves (leaves : list leaf_node) : tree :=
    match leaves with
    | [] => []
    | [l] => [Leaf l]
    | l :: rest => Leaf l :: Blank :: from_leaves rest
    end.

  (** ratchet_tree.rs 26-32 *)
  Definition num_leaves (t : tree) : N :=
    if (length t =? 0)%nat then 0 else (N.of_nat (length t) + 1) / 2.

  (** ratchet_tree.rs 35-40 *)
  Definition leaf_index_of_cid (t : tree) (cid : N) : option N :=
    let ok i := match get t (leaf_to_node i) with Some (Leaf l) => l_cid l =? cid | _ => false end in
    head (filter (fun i => ok i = true) (N.of_nat <$> seq 0 (N.to_nat (num_leaves t)))).

  (** ratchet_tree.rs 65-86; the recursion goes down one level at a time *)
  Fixpoint resolution_fuel (fuel : nat) (t : tree) (x : N) : option (list N) :=
    match get t x with
    | None => None
    | Some Blank =>
        if is_leaf x then Some []
        else match fuel with
             | O => None
             | S f =>
                 match resolution_fuel f t (left x), right x (num_leaves t) with
                 | Some a, Some r =>
                     match resolution_fuel f t r with
                     | Some b => Some (a ++ b)
                     | None => None
                     end
                 | _, _ => None
                 end
             end
    | Some (Leaf _) => Some [x]
    | Some (Parent _ unmerged) => Some (x :: (leaf_to_node <$> unmerged))
    end.
  Definition resolution (t : tree) (x : N) : option (list N) :=
    resolution_fuel (N.to_nat (level x)) t x.

  (** ratchet_tree.rs 111-119: note a new leaf in one ancestor *)
  Definition add_unmerged (i : N) (nd : node) : node :=
    match nd with
    | Parent pk um => if bool_decide (i ∈ um) then Parent pk um else Parent pk (um ++ [i])
    | _ => nd
    end.
  (** ratchet_tree.rs 110-120 *)
  Fixpoint note_unmerged (t : tree) (i : N) (dp : list N) : option tree :=
    match dp with
    | [] => Some t
    | x :: rest =>
        match get t x with
        | None => None
        | Some nd =>
            match set_node t x (add_unmerged i nd) with
            | None => None
            | Some t' => note_unmerged t' i rest
            end
        end
    end.

  (** ratchet_tree.rs 102-121 *)
  Definition add_leaf_at (t : tree) (i : N) (l : leaf_node) : option tree :=
    let needed := N.to_nat (node_width (i + 1)) in
    let t1 := t ++ replicate (needed - length t) Blank in
    match set_node t1 (leaf_to_node i) (Leaf (mk_leaf (l_cid l) (l_pub l) i)) with
    | None => None
    | Some t2 =>
        match direct_path i (num_leaves t2) with
        | None => None
        | Some dp => note_unmerged t2 i dp
        end
    end.

  (** ratchet_tree.rs 91-98: the first blank slot, else one past the end *)
  Definition free_slot (t : tree) : N :=
    let n := num_leaves t in
    let blank i := match get t (leaf_to_node i) with Some Blank => true | _ => false end in
    default n (head (filter (fun i => blank i = true) (N.of_nat <$> seq 0 (N.to_nat n)))).
  Definition add_leaf (t : tree) (l : leaf_node) : option (tree * N) :=
    let i := free_slot t in
    match add_leaf_at t i l with None => None | Some t' => Some (t', i) end.

  (** ratchet_tree.rs 128-130 *)
  Fixpoint blank_all (t : tree) (xs : list N) : option tree :=
    match xs with
    | [] => Some t
    | x :: rest =>
        match set_node t x Blank with
        | None => None
        | Some t' => blank_all t' rest
        end
    end.
  (** ratchet_tree.rs 125-131 *)
  Definition remove_leaf (t : tree) (i : N) : option tree :=
    match set_node t (leaf_to_node i) Blank with
    | None => None
    | Some t1 =>
        match direct_path i (num_leaves t) with
        | None => None
        | Some dp => blank_all t1 dp
        end
    end.

  (** ** path.rs *)

  (** path.rs 71-75: the chain of path secrets *)
  Fixpoint chain (s : secret P) (n : nat) : list (secret P) :=
    match n with O => [] | S m => derive P s :: chain (derive P s) m end.

  (** path.rs 97-104: seal one path secret to every node of a resolution *)
  Fixpoint seal_all (t : tree) (rs : nat → rnd P) (i : nat) (ps : secret P) (recipients : list N)
    : res (list (ctext P)) :=
    match recipients with
    | [] => Ok []
    | r :: rest =>
        match get t r with
        | None => Panic
        | Some nd =>
            match kem_public nd with
            | None => Err
            | Some pk =>
                match seal P (rs i) pk [ps] with
                | None => Err
                | Some c =>
                    match seal_all t rs (S i) ps rest with
                    | Ok cs => Ok (c :: cs)
                    | Err => Err
                    | Panic => Panic
                    end
                end
            end
        end
    end.

  (** path.rs 82-109: walk up the direct path; [l] lists (node, sibling, path
      secret); [rs] is the randomness of the sealing calls *)
  Fixpoint rekey_path (t : tree) (rs : nat → nat → rnd P) (d : nat)
      (l : list (N * N * secret P)) (own : gmap N (secret P)) (acc : list path_node)
    : tree * res (list path_node * gmap N (secret P)) :=
    match l with
    | [] => (t, Ok (acc, own))
    | (x, c, ps) :: rest =>
        match set_node t x (Parent (pk_of P ps) []) with
        | None => (t, Panic)
        | Some t1 =>
            match resolution t1 c with
            | None => (t1, Panic)
            | Some recipients =>
                match seal_all t1 (rs d) 0 ps recipients with
                | Ok cts =>
                    rekey_path t1 rs (S d) rest (<[x := ps]> own)
                      (acc ++ [mk_path_node (pk_of P ps) cts])
                | Err => (t1, Err)
                | Panic => (t1, Panic)
                end
            end
        end
    end.

  (** path.rs 45-118 *)
  Definition generate_update_path (t : tree) (i : N) (s : secret P) (rs : nat → nat → rnd P)
    : tree * res (update_path * secret P * gmap N (secret P)) :=
    let n := num_leaves t in
    match direct_path i n, copath i n with
    | Some dp, Some cp =>
        match get t (leaf_to_node i) with
        | Some (Leaf l) =>
            match set_node t (leaf_to_node i) (Leaf (mk_leaf (l_cid l) (pk_of P s) (l_index l))) with
            | None => (t, Panic)
            | Some t1 =>
                let pss := chain s (length dp) in
                let root_secret := default (derive P s) (last pss) in
                match rekey_path t1 rs 0 (zip (zip dp cp) pss) {[ leaf_to_node i := s ]} [] with
                | (t2, Ok (nodes, own)) =>
                    (t2, Ok (mk_update_path i (pk_of P s) nodes, root_secret, own))
                | (t2, Err) => (t2, Err)
                | (t2, Panic) => (t2, Panic)
                end
            end
        | Some _ => (t, Err)
        | None => (t, Panic)
        end
    | _, _ => (t, Panic)
    end.

  (** path.rs 143-152: install the public keys of the direct path *)
  Fixpoint install_path (t : tree) (l : list (N * path_node)) : option tree :=
    match l with
    | [] => Some t
    | (x, pn) :: rest =>
        match set_node t x (Parent (pn_pub pn) []) with
        | None => None
        | Some t' => install_path t' rest
        end
    end.

  (** path.rs 157-160: the first recipient whose secret is held, with its place *)
  Fixpoint find_held (own : gmap N (secret P)) (ri : nat) (recipients : list N)
    : option (nat * secret P) :=
    match recipients with
    | [] => None
    | r :: rest =>
        match own !! r with
        | Some s => Some (ri, s)
        | None => find_held own (S ri) rest
        end
    end.

  (** path.rs 175-182: ratchet a path secret up to the root *)
  Fixpoint climb_secrets (cur : secret P) (xs : list N) (learned : gmap N (secret P))
    : secret P * gmap N (secret P) :=
    match xs with
    | [] => (cur, learned)
    | x :: rest => climb_secrets (derive P cur) rest (<[x := derive P cur]> learned)
    end.

  (** path.rs 155-185 *)
  Fixpoint try_open (t : tree) (nodes : list path_node) (own : gmap N (secret P))
      (dp : list N) (d : nat) (cp : list N) : res (secret P * gmap N (secret P)) :=
    match cp with
    | [] => Err
    | c :: rest =>
        match resolution t c with
        | None => Panic
        | Some recipients =>
            match find_held own 0 recipients with
            | None => try_open t nodes own dp (S d) rest
            | Some (ri, s) =>
                match nodes !! d ≫= (fun pn => pn_cts pn !! ri) with
                | None => Err
                | Some ct =>
                    match hopen P s ct with
                    | Some [ps] =>
                        match dp !! d with
                        | None => Panic
                        | Some x => Ok (climb_secrets ps (drop (S d) dp) {[ x := ps ]})
                        end
                    | _ => Err
                    end
                end
            end
        end
    end.

  (** path.rs 123-191 *)
  Definition apply_update_path (t : tree) (u : update_path) (own : gmap N (secret P))
    : tree * res (secret P * gmap N (secret P)) :=
    let n := num_leaves t in
    match direct_path (up_leaf u) n, copath (up_leaf u) n with
    | Some dp, Some cp =>
        if negb (length dp =? length (up_nodes u))%nat then (t, Err)
        else match get t (leaf_to_node (up_leaf u)) with
             | Some (Leaf l) =>
                 match set_node t (leaf_to_node (up_leaf u))
                         (Leaf (mk_leaf (l_cid l) (up_leaf_pub u) (l_index l))) with
                 | None => (t, Panic)
                 | Some t1 =>
                     match install_path t1 (zip dp (up_nodes u)) with
                     | None => (t1, Panic)
                     | Some t2 => (t2, try_open t2 (up_nodes u) own dp 0 cp)
                     end
                 end
             | Some _ => (t, Err)
             | None => (t, Panic)
             end
    | _, _ => (t, Panic)
    end.

  (** ** schedule.rs *)

  (** schedule.rs 11-23 *)
  Record epoch_secrets := mk_epoch {
    es_epoch : secret P; es_encryption : secret P; es_confirmation : secret P;
    es_membership : secret P; es_init : secret P }.

  (** schedule.rs 33-52 *)
  Definition derive_epoch (root_secret init : secret P) (h : hash P) : epoch_secrets :=
    let e := epoch_kdf P root_secret init h in
    mk_epoch e (expand P LEncryption e) (expand P LConfirmation e) (expand P LMembership e)
      (expand P LInit e).

  (** ** group.rs *)

  (** group.rs 22-37 *)
  Record group := mk_group {
    g_tree : tree; g_leaf : N; g_own : gmap N (secret P); g_epoch : N;
    g_secrets : epoch_secrets; g_transcript : hash P; g_send : N }.

  (** group.rs 42-61; schedule.rs 27-29 *)
  Definition bootstrap (t : tree) (i : N) (s root_secret : secret P) : group :=
    mk_group t i {[ leaf_to_node i := s ]} 0
      (derive_epoch root_secret (zero_secret P) (zero_hash P)) (zero_hash P) 0.

  (** group.rs 64-69 *)
  Definition create (founder : leaf_node) (s : secret P) : group :=
    bootstrap (from_leaves [mk_leaf (l_cid founder) (l_pub founder) 0]) 0 s (derive P s).

  (** group.rs 259-266; [own] and [t] are the fields set just before the call *)
  Definition advance_epoch (g : group) (t : tree) (own : gmap N (secret P))
      (root_secret : secret P) (c : commit) : group :=
    let h := transcript P (g_transcript g) c in
    mk_group t (g_leaf g) own (g_epoch g + 1)
      (derive_epoch root_secret (es_init (g_secrets g)) h) h 0.

  (** what an error leaves behind: only the tree has been touched *)
  Definition with_tree (g : group) (t : tree) : group :=
    mk_group t (g_leaf g) (g_own g) (g_epoch g) (g_secrets g) (g_transcript g) (g_send g).

  (** group.rs 78-88 *)
  Definition commit_update (g : group) (s : secret P) (rs : nat → nat → rnd P)
    : group * res commit :=
    match generate_update_path (g_tree g) (g_leaf g) s rs with
    | (t, Ok (path, root_secret, own)) =>
        let c := mk_commit [] path in
        (advance_epoch g t own root_secret c, Ok c)
    | (t, Err) => (with_tree g t, Err)
    | (t, Panic) => (with_tree g t, Panic)
    end.

  (** welcome.rs 15-35 *)
  Record welcome := mk_welcome {
    w_tree : tree; w_epoch : N; w_transcript : hash P;
    w_joiner : N; w_lca : N; w_sealed : ctext P }.

  (** group.rs 92-143; on the error paths after the re-key the group's own
      secrets have already been replaced (l.104) *)
  Definition add_member (g : group) (kp : leaf_node) (s : secret P) (rs : nat → nat → rnd P)
      (wr : rnd P) : group * res (commit * welcome) :=
    match add_leaf (g_tree g) kp with
    | None => (g, Panic)
    | Some (t1, j) =>
        let prev_init := es_init (g_secrets g) in
        match generate_update_path t1 (g_leaf g) s rs with
        | (t2, Ok (path, root_secret, own)) =>
            let g1 := mk_group t2 (g_leaf g) own (g_epoch g) (g_secrets g) (g_transcript g) (g_send g) in
            match direct_path (g_leaf g) (num_leaves t2), direct_path j (num_leaves t2) with
            | Some cpath, Some jpath =>
                match head (filter (fun x => x ∈ jpath) cpath) with
                | None => (g1, Err)
                | Some lca =>
                    match own !! lca with
                    | None => (g1, Err)
                    | Some lca_secret =>
                        let c := mk_commit [PAdd kp j] path in
                        let g2 := advance_epoch g t2 own root_secret c in
                        match seal P wr (l_pub kp) [lca_secret; prev_init] with
                        | None => (g2, Err)
                        | Some ct =>
                            (g2, Ok (c, mk_welcome t2 (g_epoch g2) (g_transcript g2) j lca ct))
                        end
                    end
                end
            | _, _ => (g1, Panic)
            end
        | (t2, Err) => (with_tree g t2, Err)
        | (t2, Panic) => (with_tree g t2, Panic)
        end
    end.

  (** group.rs 147-162 *)
  Definition remove_member (g : group) (i : N) (s : secret P) (rs : nat → nat → rnd P)
    : group * res commit :=
    match remove_leaf (g_tree g) i with
    | None => (g, Panic)
    | Some t1 =>
        match generate_update_path t1 (g_leaf g) s rs with
        | (t2, Ok (path, root_secret, own)) =>
            let c := mk_commit [PRemove i] path in
            (advance_epoch g t2 own root_secret c, Ok c)
        | (t2, Err) => (with_tree g t2, Err)
        | (t2, Panic) => (with_tree g t2, Panic)
        end
    end.

  (** group.rs 167-174 *)
  Definition apply_proposal (t : tree) (p : proposal (pub P)) : option tree :=
    match p with
    | PAdd l i => add_leaf_at t i l
    | PRemove i => remove_leaf t i
    end.
  Fixpoint apply_proposals (t : tree) (ps : list (proposal (pub P))) : option tree :=
    match ps with
    | [] => Some t
    | p :: rest =>
        match apply_proposal t p with
        | None => None
        | Some t' => apply_proposals t' rest
        end
    end.

  (** group.rs 166-183 *)
  Definition process_commit (g : group) (c : commit) : group * res unit :=
    match apply_proposals (g_tree g) (cm_proposals c) with
    | None => (g, Panic)
    | Some t1 =>
        match apply_update_path t1 (cm_path c) (g_own g) with
        | (t2, Ok (root_secret, learned)) =>
            (advance_epoch g t2 (learned ∪ g_own g) root_secret c, Ok tt)
        | (t2, Err) => (with_tree g t2, Err)
        | (t2, Panic) => (with_tree g t2, Panic)
        end
    end.

  (** group.rs 204-207: place of a node in a list *)
  Fixpoint position (x : N) (l : list N) : option nat :=
    match l with
    | [] => None
    | y :: rest => if y =? x then Some O else S <$> position x rest
    end.

  (** group.rs 187-231 *)
  Definition join_from_welcome (w : welcome) (s : secret P) : res group :=
    match hopen P s (w_sealed w) with
    | Some [lca_secret; prev_init] =>
        match direct_path (w_joiner w) (num_leaves (w_tree w)) with
        | None => Panic
        | Some dp =>
            match position (w_lca w) dp with
            | None => Err
            | Some pos =>
                let '(root_secret, own) :=
                  climb_secrets lca_secret (drop (S pos) dp)
                    (<[w_lca w := lca_secret]> {[ leaf_to_node (w_joiner w) := s ]}) in
                Ok (mk_group (w_tree w) (w_joiner w) own (w_epoch w)
                      (derive_epoch root_secret prev_init (w_transcript w)) (w_transcript w) 0)
            end
        end
    | _ => Err
    end.

  (** keys.rs 19-31 *)
  Definition key_package (cid : N) (s : secret P) : leaf_node := mk_leaf cid (pk_of P s) 0.

  (** application.rs 29-38: the bytes the key and the nonce of a message are derived
      from.  [app_seal]/[app_open] take the secret, the sender and the generation,
      which fix these bytes. *)
  Definition message_key_input (sec : list N) (sender gen : N) : list N :=
    sec ++ be_enc 4 sender ++ be_enc 4 gen.

  (** application.rs 16-25 *)
  Record app_message := mk_app { am_epoch : N; am_sender : N; am_gen : N; am_body : list N }.

  (** group.rs 234-244 *)
  Definition encrypt_message (g : group) (m : list N) : group * app_message :=
    (mk_group (g_tree g) (g_leaf g) (g_own g) (g_epoch g) (g_secrets g) (g_transcript g)
       ((g_send g + 1) mod 2 ^ 32),
     mk_app (g_epoch g) (g_leaf g) (g_send g)
       (app_seal P (es_encryption (g_secrets g)) (g_leaf g) (g_send g) m)).

  (** group.rs 248-256 *)
  Definition decrypt_message (g : group) (a : app_message) : option (list N) :=
    if negb (am_epoch a =? g_epoch g) then None
    else app_open P (es_encryption (g_secrets g)) (am_sender a) (am_gen a) (am_body a).
End Tree.
