(** A finite abstraction of the two nodes of a read-write lock and their links, used in the
    proofs only: numbers of readers are cut off at two, values are replaced by whether they
    are the last written, and times by which of the two latest requests is the earlier.
    The reachable states of the abstraction are enumerated and checked one by one. *)
From Coq Require Import FMapPositive.
From stdpp Require Import prelude.
From Verif Require Import RwLock_Model.
Local Open Scope nat_scope.

Inductive amode :=
| AFree | ABg | ABgYield (k : kind) | ATrying (k : kind) | AAcqYield (k : kind)
| AReaders | AWriter | ADropping (k : kind) (adj : bool) | ADropYield (k : kind).
Global Instance amode_eq_dec : EqDecision amode.
Proof. solve_decision. Defined.
Inductive apacket := ATry (latest : bool) (k : kind) | AWrite (fresh : bool) | ARead | ALock | AVer.
Global Instance apacket_eq_dec : EqDecision apacket.
Proof. solve_decision. Defined.
Record anode := mk_anode { a_mode : amode; a_store : bool; a_rd : nat; a_fresh : bool }.
Global Instance anode_eq_dec : EqDecision anode.
Proof. solve_decision. Defined.
(** [a_bit]: the latest request of the initiator precedes that of the other node *)
Record astate := mk_astate { a_bit : bool; a_node1 : anode; a_node0 : anode; a_out1 : list apacket; a_out0 : list apacket }.
Global Instance astate_eq_dec : EqDecision astate.
Proof. solve_decision. Defined.

Definition a_node (a : astate) (s : bool) : anode := if s then a_node1 a else a_node0 a.
Definition a_out (a : astate) (s : bool) : list apacket := if s then a_out1 a else a_out0 a.
Definition aset_node (s : bool) (n : anode) (a : astate) : astate :=
  if s then mk_astate (a_bit a) n (a_node0 a) (a_out1 a) (a_out0 a)
  else mk_astate (a_bit a) (a_node1 a) n (a_out1 a) (a_out0 a).
Definition aset_out (s : bool) (l : list apacket) (a : astate) : astate :=
  if s then mk_astate (a_bit a) (a_node1 a) (a_node0 a) l (a_out0 a)
  else mk_astate (a_bit a) (a_node1 a) (a_node0 a) (a_out1 a) l.
Definition aset_bit (b : bool) (a : astate) : astate := mk_astate b (a_node1 a) (a_node0 a) (a_out1 a) (a_out0 a).
Definition aput (a : astate) (s : bool) (n : anode) (out : list apacket) : astate :=
  aset_out s (a_out a s ++ out) (aset_node s n a).

Definition aset_mode x n := mk_anode x (a_store n) (a_rd n) (a_fresh n).
Definition aset_store x n := mk_anode (a_mode n) x (a_rd n) (a_fresh n).
Definition aset_rd x n := mk_anode (a_mode n) (a_store n) x (a_fresh n).
Definition aset_fresh x n := mk_anode (a_mode n) (a_store n) (a_rd n) x.

Definition cap (r : nat) : nat := match r with 0 => 0 | 1 => 1 | _ => 2 end.
Definition aheld (m : amode) : nat :=
  match m with ABgYield KRead | ADropping KRead _ | ADropYield KRead => 1 | _ => 0 end.
Definition aarcs (n : anode) : nat := (if a_store n then 1 else 0) + a_rd n + aheld (a_mode n).
Definition alet_go (k : kind) (n : anode) : anode :=
  match k with
  | KWrite => aset_mode AFree n
  | KRead => if a_store n || negb (a_rd n =? 0) then aset_mode AReaders n else aset_mode AFree n
  end.
Definition abg_done (k : kind) (n : anode) : anode :=
  match k with
  | KWrite => alet_go KWrite n
  | KRead => if aarcs n =? 2 then alet_go KRead (aset_store false n) else alet_go KRead n
  end.
Definition arelease (k : kind) (fresh : bool) : apacket := match k with KRead => ARead | KWrite => AWrite fresh end.
Definition ayield (k : kind) (n : anode) (p : apacket) : option anode :=
  match k, p with
  | KWrite, AWrite f => Some (aset_fresh f n)
  | KRead, ARead => Some n
  | _, _ => None
  end.
Definition agrant (k : kind) (n : anode) : anode :=
  match k with
  | KRead => aset_mode AReaders (aset_rd (cap (S (a_rd n))) (aset_store true n))
  | KWrite => aset_mode AWriter n
  end.
Definition awins (bit s : bool) : bool := if s then bit else negb bit.

(** [None]: a case the abstraction does not cover.  With [mx] false, a request losing to
    one of the other kind is left out instead. *)
Definition arecv (mx bit s : bool) (n : anode) (p : apacket) : option (list (anode * list apacket)) :=
  match a_mode n with
  | AFree | AReaders | AWriter => Some []
  | ABg =>
      Some [match p with
            | ATry _ k => (aset_mode (ABgYield k) match k with KRead => aset_store true n | KWrite => n end, [arelease k (a_fresh n)])
            | _ => (aset_mode AFree n, [])
            end]
  | ABgYield k =>
      Some [match ayield k n p with Some n' => (abg_done k n', [AVer]) | None => (n, []) end]
  | ATrying k0 =>
      match p with
      | AWrite f => Some [(agrant k0 (aset_fresh f n), [AVer; ALock])]
      | ARead => Some [(agrant k0 n, [AVer; ALock])]
      | ALock | AVer => Some [(n, [])]
      | ATry latest k =>
          match k, k0 with
          | KRead, KRead => Some [(agrant k0 n, [ARead])]
          | _, _ =>
              if negb latest then None else
              if awins bit s then Some [(agrant k0 n, [ALock])]
              else if bool_decide (k = k0) then Some [(aset_mode (AAcqYield k0) n, [arelease k (a_fresh n)])]
              else if mx then None else Some []
          end
      end
  | AAcqYield k =>
      Some [match ayield k n p with Some n' => (aset_mode (ATrying k) n', [AVer]) | None => (n, []) end]
  | ADropping k adj =>
      Some [match p with
            | ARead => (n, match k with KRead => [AVer] | KWrite => [] end)
            | AVer => if adj then (aset_mode (ADropYield k) n, [arelease k (a_fresh n)]) else (alet_go k n, [])
            | ATry _ _ => (aset_mode (ADropping k true) n, [])
            | AWrite _ | ALock => (n, [])
            end]
  | ADropYield k =>
      Some [match ayield k n p with Some n' => (alet_go k n', [AVer]) | None => (n, []) end]
  end.

Definition age (p : apacket) : apacket := match p with ATry _ k => ATry false k | _ => p end.
Definition stale (p : apacket) : apacket := match p with AWrite _ => AWrite false | _ => p end.

Definition s_fast (a : astate) (s : bool) : list astate :=
  let n := a_node a s in
  if a_store n && (1 <? aarcs n) then [aput a s (aset_rd (cap (S (a_rd n))) n) []] else [].
Definition s_acquire (a : astate) (s : bool) : list astate :=
  let n := a_node a s in
  match a_mode n with
  | AFree =>
      let a' := aset_out s (age <$> a_out a s) a in
      k ← [KRead; KWrite]; b ← [true; false];
      [aset_bit b (aput a' s (aset_mode (ATrying k) n) [ATry true k])]
  | _ => []
  end.
Definition s_bg (a : astate) (s : bool) : list astate :=
  let n := a_node a s in
  match a_mode n with
  | AFree => [aset_node s (aset_mode ABg n) a]
  | ABg => [aset_node s (aset_mode AFree n) a]
  | _ => []
  end.
Definition s_mutate (a : astate) (s : bool) : list astate :=
  match a_mode (a_node a s) with
  | AWriter =>
      [mk_astate (a_bit a) (aset_fresh s (a_node1 a)) (aset_fresh (negb s) (a_node0 a)) (stale <$> a_out1 a) (stale <$> a_out0 a)]
  | _ => []
  end.
Definition s_drop_read (a : astate) (s : bool) : option (list astate) :=
  let n := a_node a s in
  match a_rd n with
  | 0 => Some []
  | 1 =>
      if aarcs n =? 2 then
        match a_mode n with
        | AReaders => Some [aput a s (aset_mode (ADropping KRead false) (aset_store false (aset_rd 0 n))) [ARead]]
        | _ => Some []
        end
      else Some [aset_node s match a_mode n with AReaders => alet_go KRead (aset_rd 0 n) | _ => aset_rd 0 n end a]
  | _ =>
      if a_store n then
        Some [aset_node s match a_mode n with AReaders => alet_go KRead (aset_rd 1 n) | _ => aset_rd 1 n end a;
              aset_node s match a_mode n with AReaders => alet_go KRead (aset_rd 2 n) | _ => aset_rd 2 n end a]
      else None
  end.
Definition s_drop_write (a : astate) (s : bool) : list astate :=
  let n := a_node a s in
  match a_mode n with
  | AWriter => [aput a s (aset_mode (ADropping KWrite false) n) [AWrite (a_fresh n)]]
  | _ => []
  end.
Definition s_deliver (mx : bool) (a : astate) (s : bool) : option (list astate) :=
  match a_out a (negb s) with
  | [] => Some []
  | p :: rest =>
      match arecv mx (a_bit a) s (a_node a s) p with
      | None => None
      | Some l => Some ((λ no, aput (aset_out (negb s) rest a) s no.1 no.2) <$> l)
      end
  end.
Definition asucc1 (mx : bool) (a : astate) (s : bool) : option (list astate) :=
  match s_drop_read a s, s_deliver mx a s with
  | Some l1, Some l2 => Some (s_fast a s ++ s_acquire a s ++ s_bg a s ++ s_mutate a s ++ s_drop_write a s ++ l1 ++ l2)
  | _, _ => None
  end.
Definition asucc (mx : bool) (a : astate) : option (list astate) :=
  match asucc1 mx a true, asucc1 mx a false with Some l1, Some l2 => Some (l1 ++ l2) | _, _ => None end.

(** ** Enumeration *)
Definition b_kind (k : kind) (p : positive) : positive := match k with KRead => p~0 | KWrite => p~1 end.
Definition b_bool (b : bool) (p : positive) : positive := if b then p~1 else p~0.
Definition b_mode (m : amode) (p : positive) : positive :=
  match m with
  | AFree => p~0~0~0~0 | ABg => p~0~0~0~1 | AReaders => p~0~0~1~0 | AWriter => p~0~0~1~1
  | ABgYield k => (b_kind k p)~0~1~0~0 | ATrying k => (b_kind k p)~0~1~0~1 | AAcqYield k => (b_kind k p)~0~1~1~0
  | ADropYield k => (b_kind k p)~0~1~1~1 | ADropping k adj => (b_bool adj (b_kind k p))~1~0~0~0
  end%positive.
Definition b_packet (x : apacket) (p : positive) : positive :=
  match x with
  | ATry l k => (b_bool l (b_kind k p))~0~0~1 | AWrite f => (b_bool f p)~0~1~1
  | ARead => p~1~0~1 | ALock => p~1~1~1 | AVer => p~1~0~0
  end%positive.
Definition b_node (n : anode) (p : positive) : positive :=
  b_mode (a_mode n) (b_bool (a_store n) (b_bool (a_fresh n) (match a_rd n with O => p~0~0 | S O => p~0~1 | _ => p~1~1 end)%positive)).
Definition code (a : astate) : positive :=
  b_bool (a_bit a) (b_node (a_node1 a) (b_node (a_node0 a) (foldr b_packet (foldr b_packet 1 (a_out1 a))~0~0~0 (a_out0 a)))%positive).

Definition aset := PositiveMap.t (list astate).
Definition amem (a : astate) (m : aset) : bool :=
  match PositiveMap.find (code a) m with Some l => bool_decide (a ∈ l) | None => false end.
Definition aadd (a : astate) (m : aset) : aset :=
  PositiveMap.add (code a) (a :: default [] (PositiveMap.find (code a) m)) m.

Section explore.
  Context (mx : bool) (check : astate → bool).
  Definition visit (st : option (list astate * aset)) : option (list astate * aset) :=
    match st with
    | None => None
    | Some ([], m) => Some ([], m)
    | Some (a :: todo, m) =>
        if amem a m then Some (todo, m) else
        if check a then match asucc mx a with Some l => Some (l ++ todo, aadd a m) | None => None end else None
    end.
  Definition explore (n : N) (a : astate) : option (list astate * aset) :=
    N.iter n visit (Some ([a], PositiveMap.empty _)).
End explore.

(** ** The checks *)
Definition aguard (n : anode) : bool := negb (a_rd n =? 0) || bool_decide (a_mode n = AWriter).
(** a write guard is alone, and a guard exposes the last value *)
Definition asafe1 (a : astate) (s : bool) : bool :=
  (if bool_decide (a_mode (a_node a s) = AWriter)
   then (a_rd (a_node a s) =? 0) && negb (aguard (a_node a (negb s))) else true) &&
  (if aguard (a_node a s) then a_fresh (a_node a s) else true).
Definition asafe (a : astate) : bool := asafe1 a true && asafe1 a false.
Definition anone (a : astate) : bool := negb (aguard (a_node a true)) && negb (aguard (a_node a false)).

Definition anode_init : anode := mk_anode AFree false 0 true.
Definition ainit (b : bool) : astate := mk_astate b anode_init anode_init [] [].
