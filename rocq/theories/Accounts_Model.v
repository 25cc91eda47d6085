(** Model of citadel_user: auth/proposed_credentials.rs, client_account.rs (credentials, mutual
    peers), credentials.rs, account_manager.rs (registration), backend/memory.rs.
    Strings are lists of Unicode code points. SHA3-256, Argon2id and [username_to_cid]
    (citadel_types/src/user/mod.rs:51-59, a truncated SHA3-256) are parameters. Random salts and
    secrets are inputs of the operations. Ratchet state inside an account is not modelled here. *)
From stdpp Require Import prelude gmap.
From Verif Require Import Types_Model.
Local Open Scope N_scope.

(** ** Strings *)
(** Unicode White_Space, used by str::trim and bstr's trim *)
Definition is_ws (c : N) : bool :=
  ((9 <=? c) && (c <=? 13)) || (c =? 32) || (c =? 133) || (c =? 160) || (c =? 5760) ||
  ((8192 <=? c) && (c <=? 8202)) || (c =? 8232) || (c =? 8233) || (c =? 8239) || (c =? 8287) || (c =? 12288).
Fixpoint drop_ws (s : rstring) : rstring :=
  match s with c :: s' => if is_ws c then drop_ws s' else s | [] => [] end.
Definition trim (s : rstring) : rstring := reverse (drop_ws (reverse (drop_ws s))).

(** str::len: bytes of the UTF-8 encoding *)
Definition utf8_width (c : N) : N :=
  if c <? 128 then 1 else if c <? 2048 then 2 else if c <? 65536 then 3 else 4.
Definition byte_len (s : rstring) : N := foldr (fun c acc => utf8_width c + acc) 0 s.

(** ** credentials.rs:89-187 *)
Record requirements := mk_req {
  min_password : N; max_password : N; min_username : N; max_username : N; min_name : N; max_name : N }.
Definition default_requirements : requirements := mk_req 7 17 3 37 2 77.

Definition contains_space (s : rstring) : bool := bool_decide (32 ∈ s).

Definition check (r : requirements) (username : rstring) (password : option rstring) (full_name : rstring) : bool :=
  if (byte_len username <? min_username r) || (max_username r <? byte_len username) then false
  else if contains_space username then false
  else if match password with
          | Some p => (byte_len p <? min_password r) || (max_password r <? byte_len p) || contains_space p
          | None => false
          end then false
  else if (byte_len full_name <? min_name r) || (max_name r <? byte_len full_name) then false
  else true.

Section Accounts.
Variable cid_of : rstring -> N.

(** Argon settings (argon_container.rs:207-215); cost parameters are folded into [as_cost]. *)
Record argon_settings := mk_as { as_ad : list N; as_salt : list N; as_secret : list N; as_cost : N }.
Variable sha : list N -> list N.
Variable argon : argon_settings -> list N -> list N.

(** proposed_credentials.rs:56-72 *)
Inductive credentials :=
| Enabled (username : rstring) (password_hashed : list N) (full_name : rstring) (client_settings : option argon_settings)
| Disabled (username : rstring).

Definition cred_username (c : credentials) : rstring := match c with Enabled u _ _ _ | Disabled u => u end.

(** auth/mod.rs:43-53 and argon_container.rs:291-294 *)
Inductive argon_container := ClientArgon (s : argon_settings) | ServerArgon (s : argon_settings) (h : list N).
Inductive auth_mode :=
| Argon (username full_name : rstring) (c : argon_container)
| Transient (username full_name : rstring).
Definition auth_username (a : auth_mode) : rstring := match a with Argon u _ _ | Transient u _ => u end.
Definition auth_full_name (a : auth_mode) : rstring := match a with Argon _ f _ | Transient _ f => f end.

(** proposed_credentials.rs:105-131; argon_hash 133-151 is argon after sha; [secret], [salt] random *)
Definition DEFAULT_COST : N := 0.
Definition new_register (full_name username password : rstring) (secret salt : list N) : credentials :=
  let u := trim username in let f := trim full_name in let p := trim password in
  let settings := mk_as f salt secret DEFAULT_COST in
  Enabled u (argon settings (sha p)) f (Some settings).

(** proposed_credentials.rs:77-93 *)
Definition new_connect (full_name username password : rstring) (settings : argon_settings) : credentials :=
  Enabled (trim username) (argon settings (sha password)) (trim full_name) None.

(** proposed_credentials.rs:198-219; [dflt] = ArgonSettings::default(), which draws a salt *)
Definition authless_client : rstring := [97; 117; 116; 104; 108; 101; 115; 115; 46; 99; 108; 105; 101; 110; 116].
Definition into_auth_store (dflt : argon_settings) (c : credentials) : auth_mode :=
  match c with
  | Disabled u => Transient u authless_client
  | Enabled u _ f s => Argon u f (ClientArgon (default dflt s))
  end.

(** Server settings: ServerMiscSettings and the node's Argon settings. *)
Record server_cfg := mk_cfg { allow_transient : bool; reqs : requirements; node_argon : argon_settings }.

(** proposed_credentials.rs:238-282; argon_container.rs:160-169; [salt] is drawn here. *)
Definition derive_server_container (cfg : server_cfg) (salt : list N) (dflt : argon_settings) (c : credentials) : option auth_mode :=
  match c with
  | Disabled _ => if allow_transient cfg then Some (into_auth_store dflt c) else None
  | Enabled u p f _ =>
      let s := mk_as u salt (as_secret (node_argon cfg)) (as_cost (node_argon cfg)) in
      Some (Argon u f (ServerArgon s (argon s p)))
  end.

(** client_account.rs: the fields of ClientNetworkAccount and AccountState used here *)
Definition bytes : Type := list N.
Record account := mk_account {
  a_auth : auth_mode;
  a_peers : option (list N);
  a_bytes : gmap N (gmap rstring (gmap rstring bytes)) }.

(** proposed_credentials.rs:285-322 [ProposedCredentials::validate_credentials] *)
Definition creds_validate (c : credentials) (k : argon_container) : bool :=
  match c with
  | Disabled _ => true
  | Enabled _ p _ _ =>
      match k with
      | ServerArgon s h => bool_decide (argon s p = h)
      | ClientArgon _ => false
      end
  end.

(** client_account.rs:263-281 [ClientNetworkAccount::validate_credentials] *)
Definition validate_credentials (a : account) (c : credentials) : bool :=
  if negb (bool_decide (cred_username c = auth_username (a_auth a))) then false
  else match a_auth a with
       | Argon _ _ k => creds_validate c k
       | Transient _ _ => true
       end.

(** client_account.rs:284-306 *)
Definition generate_connect_credentials (a : account) (password : rstring) : credentials :=
  match a_auth a with
  | Argon u f (ClientArgon s) | Argon u f (ServerArgon s _) => new_connect f u password s
  | Transient u _ => Disabled u
  end.

(** ** The account database: backend/memory.rs:53-55 *)

(** account_manager.rs:311-339: the local account under id 0 exists from start-up. *)
Definition new_account (m : auth_mode) : account := mk_account m None ∅.
Definition db_init : gmap N account := {[0 := new_account (Transient [] [])]}.

(** account_manager.rs:224-276. The registration lock covers the existence check and the save, so
    the whole function is one step. The id check of client_account.rs:178 is implied by 234. *)
Definition register (cfg : server_cfg) (d : gmap N account) (salt : list N) (dflt : argon_settings) (c : credentials)  : gmap N account * option N :=
  let cid := cid_of (cred_username c) in
  if cid =? 0 then (d, None)
  else match derive_server_container cfg salt dflt c with
  | None => (d, None)
  | Some auth =>
      if negb (check (reqs cfg) (auth_username auth) None (auth_full_name auth)) then (d, None)
      else match d !! cid_of (auth_username auth) with
      | Some _ => (d, None)
      | None => (<[cid := new_account auth]> d, Some cid)
      end
  end.

(** client_account.rs:494-507 [remove_hyperlan_peer]: removes the first occurrence *)
Fixpoint remove_first (c : N) (l : list N) : option (list N) :=
  match l with
  | [] => None
  | x :: l' => if x =? c then Some l' else match remove_first c l' with Some r => Some (x :: r) | None => None end
  end.
Definition remove_peer (c : N) (a : account) : account * bool :=
  match a_peers a with
  | Some l => match remove_first c l with
              | Some l' => (mk_account (a_auth a) (Some l') (a_bytes a), true)
              | None => (a, false)
              end
  | None => (a, false)
  end.
Definition add_peer (c : N) (a : account) : account :=
  mk_account (a_auth a) (Some (default [] (a_peers a) ++ [c])) (a_bytes a).

(** memory.rs:94-110 *)
Definition delete (d : gmap N account) (cid : N)  : gmap N account * bool :=
  match d !! cid with
  | None => (d, false)
  | Some cl =>
      (foldl (fun d p => match d !! p with
                         | Some a => <[p := (remove_peer cid a).1]> d
                         | None => d
                         end) (base.delete cid d) (default [] (a_peers cl)), true)
  end.

(** memory.rs:151-160 and client_account.rs:397-429. [None]: the second write lock on the same
    account never succeeds (both ids equal). *)
Definition p2p_register (d : gmap N account) (c0 c1 : N) : option (gmap N account * bool) :=
  match d !! c0, d !! c1 with
  | Some a0, Some a1 =>
      if c0 =? c1 then None
      else Some (<[c1 := add_peer c0 a1]> (<[c0 := add_peer c1 a0]> d), true)
  | _, _ => Some (d, false)
  end.

(** memory.rs:177-187 and client_account.rs:433-444; the two removals lock one account at a time *)
Definition p2p_deregister (d : gmap N account) (c0 c1 : N)  : gmap N account * bool :=
  match d !! c0, d !! c1 with
  | Some a0, Some a1 =>
      match remove_peer c1 a0 with
      | (a0', true) =>
          let d' := <[c0 := a0']> d in
          match d' !! c1 with
          | Some a1' => let '(a1'', ok) := remove_peer c0 a1' in (<[c1 := a1'']> d', ok)
          | None => (d', false)
          end
      | (_, false) => (d, false)
      end
  | _, _ => (d, false)
  end.

(** memory.rs:202-211, client_account.rs:340-349 *)
Definition peer_list (d : gmap N account) (c : N) : option (list N) :=
  match d !! c with Some a => a_peers a | None => None end.

(** client_account.rs:447-463 *)
Definition peers_exist (d : gmap N account) (c : N) (ps : list N) : list bool :=
  match d !! c with
  | Some a => (fun p => match a_peers a with Some l => bool_decide (p ∈ l) | None => false end) <$> ps
  | None => (fun _ => false) <$> ps
  end.

(** ** Byte map: memory.rs:325-434 *)
Definition sub_map (a : account) (peer : N) (key : rstring) : gmap rstring bytes :=
  default ∅ (default ∅ (a_bytes a !! peer) !! key).
Definition put_sub_map (a : account) (peer : N) (key : rstring) (m : gmap rstring bytes) : account :=
  mk_account (a_auth a) (a_peers a) (<[peer := <[key := m]> (default ∅ (a_bytes a !! peer))]> (a_bytes a)).

Definition byte_get (d : gmap N account) (c peer : N) (key sub : rstring)  : gmap N account * option bytes :=
  match d !! c with
  | Some a => (<[c := put_sub_map a peer key (sub_map a peer key)]> d, sub_map a peer key !! sub)
  | None => (d, None)
  end.
Definition byte_remove (d : gmap N account) (c peer : N) (key sub : rstring)  : gmap N account * option bytes :=
  match d !! c with
  | Some a => (<[c := put_sub_map a peer key (base.delete sub (sub_map a peer key))]> d, sub_map a peer key !! sub)
  | None => (d, None)
  end.
Definition byte_store (d : gmap N account) (c peer : N) (key sub : rstring) (v : bytes)  : gmap N account * option bytes :=
  match d !! c with
  | Some a => (<[c := put_sub_map a peer key (<[sub := v]> (sub_map a peer key))]> d, sub_map a peer key !! sub)
  | None => (d, None)
  end.
Definition byte_get_key (d : gmap N account) (c peer : N) (key : rstring)  : gmap N account * gmap rstring bytes :=
  match d !! c with
  | Some a => (<[c := put_sub_map a peer key (sub_map a peer key)]> d, sub_map a peer key)
  | None => (d, ∅)
  end.
Definition byte_remove_key (d : gmap N account) (c peer : N) (key : rstring)  : gmap N account * gmap rstring bytes :=
  match d !! c with
  | Some a =>
      (<[c := mk_account (a_auth a) (a_peers a) (<[peer := base.delete key (default ∅ (a_bytes a !! peer))]> (a_bytes a))]> d,
       sub_map a peer key)
  | None => (d, ∅)
  end.

(** ** Operations a server's database goes through *)
Inductive op :=
| ORegister (salt : list N) (dflt : argon_settings) (c : credentials)
| ODelete (c : N)
| OP2pRegister (a b : N)
| OP2pDeregister (a b : N)
| OByteGet (c peer : N) (key sub : rstring)
| OByteRemove (c peer : N) (key sub : rstring)
| OByteStore (c peer : N) (key sub : rstring) (v : bytes)
| OByteGetKey (c peer : N) (key : rstring)
| OByteRemoveKey (c peer : N) (key : rstring).

Inductive out :=
| RCid (r : option N) | ROk (ok : bool) | RHang | RVal (v : option bytes) | RMap (m : gmap rstring bytes).

Definition step (cfg : server_cfg) (d : gmap N account) (o : op)  : gmap N account * out :=
  match o with
  | ORegister salt dflt c => let '(d', r) := register cfg d salt dflt c in (d', RCid r)
  | ODelete c => let '(d', ok) := delete d c in (d', ROk ok)
  | OP2pRegister a b => match p2p_register d a b with Some (d', ok) => (d', ROk ok) | None => (d, RHang) end
  | OP2pDeregister a b => let '(d', ok) := p2p_deregister d a b in (d', ROk ok)
  | OByteGet c p k s => let '(d', v) := byte_get d c p k s in (d', RVal v)
  | OByteRemove c p k s => let '(d', v) := byte_remove d c p k s in (d', RVal v)
  | OByteStore c p k s v => let '(d', r) := byte_store d c p k s v in (d', RVal r)
  | OByteGetKey c p k => let '(d', m) := byte_get_key d c p k in (d', RMap m)
  | OByteRemoveKey c p k => let '(d', m) := byte_remove_key d c p k in (d', RMap m)
  end.

Fixpoint run (cfg : server_cfg) (d : gmap N account) (ops : list op)  : gmap N account * list out :=
  match ops with
  | [] => (d, [])
  | o :: ops' =>
      let '(d', r) := step cfg d o in
      let '(d'', rs) := run cfg d' ops' in (d'', r :: rs)
  end.
End Accounts.
Notation db := (gmap N account).
