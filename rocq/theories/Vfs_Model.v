(** Model of where received files go: names and paths, the remote encrypted
    virtual filesystem of the accounts, and who is asked before a file is written.

    Sources:
    - citadel_user/src/misc.rs 79-133 (virtual paths)
    - citadel_user/src/backend/file_io_backend.rs 356-407 (storing), 409-462 (looking up, deleting), 493-592 (paths)
    - citadel_proto/src/proto/packet_processor/file_packet.rs 124-175, 236-370
    - citadel_proto/src/proto/state_container/inbound_transfer.rs 84-297 (file header)
    - citadel_user/src/backend/std_file_io.rs

    Simplifications.
    - Unix: the separator is "/"; a path is a list of characters without the
      difference between bytes and characters.
    - The filesystem has files and directories, no links, no rights and no errors
      other than those that follow from what is there.
    - A file that is stored has arrived as a whole; what is on the way is the
      subject of Transfer_Model.v.  Local encryption is left out here.
    - Requests are served one after the other. *)
From Coq Require Import ZifyBool ZifyNat ZifyN.
From Coq Require Import Decimal DecimalN.
From stdpp Require Import prelude gmap.
Local Open Scope N_scope.

(** ** Paths *)
Notation str := (list N).
Notation slash := 47.
Notation backslash := 92.
Notation dot := 46.

(** the parts between the separators *)
Fixpoint parts_of (s : str) : list str :=
  match s with
  | [] => [[]]
  | ch :: s' =>
      let r := parts_of s' in
      if ch =? slash then [] :: r
      else match r with p :: r' => (ch :: p) :: r' | [] => [[ch]] end
  end.
Definition meaningful (p : str) : bool := negb (bool_decide (p = [])) && negb (bool_decide (p = [dot])).
Definition segments (s : str) : list str := filter (λ p, meaningful p = true) (parts_of s).

(** std::path::Path::components *)
Inductive component := RootDir | CurDir | ParentDir | Normal (p : str).
Definition absolute (s : str) : bool := match s with ch :: _ => ch =? slash | [] => false end.
Definition components (s : str) : list component :=
  (if absolute s then [RootDir] else if bool_decide (head (parts_of s) = Some [dot]) then [CurDir] else [])
  ++ ((λ p, if bool_decide (p = [dot; dot]) then ParentDir else Normal p) <$> segments s).

(** the file or directory a path names *)
Definition enter (at_ : list str) (p : str) : list str :=
  if bool_decide (p = [dot; dot]) then removelast at_ else at_ ++ [p].
Definition resolve (s : str) : list str := foldl enter [] (segments s).

(** std::path::PathBuf::push *)
Definition push (base name : str) : str := if absolute name then name else base ++ [slash] ++ name.

(** decimal digits of an account number *)
Fixpoint digits (u : uint) : str :=
  match u with
  | Nil => []
  | D0 u => 48 :: digits u | D1 u => 49 :: digits u | D2 u => 50 :: digits u | D3 u => 51 :: digits u
  | D4 u => 52 :: digits u | D5 u => 53 :: digits u | D6 u => 54 :: digits u | D7 u => 55 :: digits u
  | D8 u => 56 :: digits u | D9 u => 57 :: digits u
  end.
Definition cid_str (cid : N) : str := digits (N.to_uint cid).

(** misc.rs 121-125 *)
Definition format_path (s : str) : str := (λ ch, if ch =? backslash then slash else ch) <$> s.
Fixpoint contains_dots (s : str) : bool :=
  match s with
  | a :: s' => match s' with b :: _ => ((a =? dot) && (b =? dot)) || contains_dots s' | [] => false end
  | [] => false
  end.
(** misc.rs 79-111 *)
Definition valid_virtual (s : str) : bool :=
  absolute s && negb (bool_decide (last s = Some slash)) && negb (contains_dots s).
(** file_io_backend.rs 500-519 *)
Definition valid_name (name : str) : bool :=
  negb (bool_decide (name = [])) &&
  forallb (λ k, match k with Normal _ | CurDir => true | _ => false end) (components name).
(** misc.rs 133 *)
Definition ext : str := [46; 118; 120; 101].

(** ** Files *)
Inductive node := Dir | File (d : str).
Notation fs := (gmap (list str) node).

Definition is_file (f : fs) (p : list str) : bool := match f !! p with Some (File _) => true | _ => false end.
(** std_file_io.rs: create_dir_all *)
Fixpoint mkdirs (f : fs) (done rest : list str) : option fs :=
  if is_file f done then None else
  let f' := <[done := Dir]> f in
  match rest with
  | [] => Some f'
  | p :: rest' => mkdirs f' (done ++ [p]) rest'
  end.
Definition create_dir_all (f : fs) (path : str) : option fs := mkdirs f [] (resolve path).
(** a path whose last part is empty, "." or ".." can only be a directory *)
Definition file_target (path : str) : option (list str) :=
  match last (parts_of path) with
  | Some p => if meaningful p && negb (bool_decide (p = [dot; dot])) then Some (resolve path) else None
  | None => None
  end.
(** create or overwrite *)
Definition write_file (f : fs) (path : str) (d : str) : option fs :=
  match file_target path with
  | None => None
  | Some p =>
      match f !! removelast p, f !! p with
      | Some Dir, Some Dir => None
      | Some Dir, _ => Some (<[p := File d]> f)
      | _, _ => None
      end
  end.
Definition read_file (f : fs) (path : str) : option str :=
  match file_target path with
  | None => None
  | Some p => match f !! p with Some (File d) => Some d | _ => None end
  end.
Definition remove_file (f : fs) (path : str) : option fs :=
  match file_target path with
  | None => None
  | Some p => match f !! p with Some (File _) => Some (delete p f) | _ => None end
  end.

Section Store.
  (** [v_dir], [t_dir]: the directories of the node, ending in "/"; [ser], [deser]: metadata with its security level *)
  Context (v_dir t_dir : str) (ser : N → str) (deser : str → option N).

  (** file_io_backend.rs 553-567: directory that is created and path; [PathBuf::pop] takes the last component off *)
  Definition virtual_path (cid : N) (vpath : str) : option str :=
    let v := format_path vpath in
    if valid_virtual v then Some (v_dir ++ cid_str cid ++ v) else None.
  Definition parent_exists (f : fs) (path : str) : option fs := mkdirs f [] (removelast (resolve path)).
  (** file_io_backend.rs 534-551 *)
  Definition transfer_path (cid : N) (name : str) : option str :=
    if valid_name name then Some (push (t_dir ++ cid_str cid) name) else None.
  (** file_io_backend.rs 571-575 *)
  Definition meta_path (path : str) : str := format_path (path ++ ext).

  Inductive req :=
  | Put (cid : N) (vpath : str) (level : N) (data : str)   (* [cid] is the one in the metadata *)
  | Pull (cid : N) (vpath : str) (take_it : bool)          (* [cid] is the one in the packet header *)
  | Del (cid : N) (vpath : str).
  Inductive ans := Done | Error | Content (level : N) (data : str).
  Global Instance ans_eq_dec : EqDecision ans.
  Proof. solve_decision. Defined.

  (** the session's own account, [who], is not looked at *)
  Definition serve (f : fs) (who : N) (r : req) : fs * ans :=
    match r with
    | Put cid vpath level data =>
        match virtual_path cid vpath with
        | None => (f, Error)
        | Some path =>
            match parent_exists f path with
            | None => (f, Error)
            | Some f1 =>
                match write_file f1 path [] with
                | None => (f1, Error)
                | Some f2 =>
                    match write_file f2 (meta_path path) (ser level) with
                    | None => (f2, Error)
                    | Some f3 => match write_file f3 path data with Some f4 => (f4, Done) | None => (f3, Error) end
                    end
                end
            end
        end
    | Pull cid vpath take_it =>
        match virtual_path cid vpath with
        | None => (f, Error)
        | Some path =>
            match parent_exists f path with
            | None => (f, Error)
            | Some f1 =>
                match read_file f1 (meta_path path) with
                | None => (f1, Error)
                | Some raw =>
                    match deser raw, read_file f1 path with
                    | Some level, Some d =>
                        (* file_packet.rs 280-286: only the file is deleted *)
                        ((if take_it then default f1 (remove_file f1 path) else f1), Content level d)
                    | _, _ => (f1, Error)
                    end
                end
            end
        end
    | Del cid vpath =>
        match virtual_path cid vpath with
        | None => (f, Error)
        | Some path =>
            match parent_exists f path with
            | None => (f, Error)
            | Some f1 =>
                match remove_file f1 (meta_path path) with
                | None => (f1, Error)
                | Some f2 => match remove_file f2 path with Some f3 => (f3, Done) | None => (f2, Error) end
                end
            end
        end
    end.

  Fixpoint serve_all (f : fs) (rs : list (N * req)) : fs * list (N * ans) :=
    match rs with
    | [] => (f, [])
    | (who, r) :: rs' =>
        let '(f', a) := serve f who r in
        let '(f'', l) := serve_all f' rs' in (f'', (who, a) :: l)
    end.
End Store.

(** ** Who is asked *)
(** a file header: inbound_transfer.rs 84-150 *)
Record offer := mk_offer { o_id : N; o_name : str; o_level : option N }.
Inductive did :=
| Asked (id : N)      (* the user gets a handle and has to accept *)
| Opened (id : N).    (* the file is opened for writing *)
Inductive oev :=
| Arrives (o : offer)
| Accepts (id : N)
| Declines (id : N)
| Asks (id : N).      (* the user pulls a file from the virtual filesystem: the answer is a file header *)
Global Instance did_eq_dec : EqDecision did.
Proof. solve_decision. Defined.

Record rx_st := mk_rx { w_files : gset N; w_waiting : gset N }.
(** inbound_transfer.rs 107, 134-140, 166-172: a header that declares a local encryption level counts as the answer to a
    pull, and is accepted without the user *)
Definition ostep (x : rx_st) (e : oev) : rx_st * list did :=
  match e with
  | Arrives o =>
      if bool_decide (o_id o ∈ w_files x) then (x, [])
      else match o_level o with
           | Some _ => (mk_rx ({[o_id o]} ∪ w_files x) (w_waiting x), [Opened (o_id o)])
           | None => (mk_rx ({[o_id o]} ∪ w_files x) ({[o_id o]} ∪ w_waiting x), [Asked (o_id o)])
           end
  | Accepts id =>
      if bool_decide (id ∈ w_waiting x) then (mk_rx (w_files x) (w_waiting x ∖ {[id]}), [Opened id]) else (x, [])
  | Declines id =>
      if bool_decide (id ∈ w_waiting x) then (mk_rx (w_files x ∖ {[id]}) (w_waiting x ∖ {[id]}), []) else (x, [])
  | Asks id => (x, [])
  end.
Fixpoint orun (x : rx_st) (es : list oev) : list did :=
  match es with [] => [] | e :: es' => let '(x', l) := ostep x e in l ++ orun x' es' end.
Definition orx0 : rx_st := mk_rx ∅ ∅.
