(** Specifications for C36-C38, over operation histories and their answers. *)
From stdpp Require Import prelude gmap.
From Verif Require Import Types_Model Accounts_Model.
Local Open Scope N_scope.

(** C38: the storage as a plain map from addresses (account, peer, key, sub-key) to values. *)
Definition address : Type := N * N * rstring * rstring.
Record storage := mk_storage { st_accounts : gset N; st_map : gmap address bytes }.

Definition addr_account (a : address) : N := a.1.1.1.

(** The answer each storage operation must give ... *)
Definition storage_answer (s : storage) (o : op) (r : out) : Prop :=
  match o with
  | OByteGet c p k x | OByteRemove c p k x | OByteStore c p k x _ => r = RVal (st_map s !! (c, p, k, x))
  | OByteGetKey c p k | OByteRemoveKey c p k =>
      exists m, r = RMap m /\ forall x, m !! x = st_map s !! (c, p, k, x)
  | _ => True
  end.

(** ... and how it changes the storage. *)
Definition storage_next (s : storage) (o : op) (r : out) : storage :=
  match o, r with
  | ORegister _ _ _, RCid (Some c) => mk_storage ({[c]} ∪ st_accounts s) (st_map s)
  | ODelete c, ROk true =>
      mk_storage (st_accounts s ∖ {[c]}) (filter (fun e => addr_account e.1 <> c) (st_map s))
  | OByteStore c p k x v, _ =>
      if decide (c ∈ st_accounts s) then mk_storage (st_accounts s) (<[(c, p, k, x) := v]> (st_map s)) else s
  | OByteRemove c p k x, _ => mk_storage (st_accounts s) (base.delete (c, p, k, x) (st_map s))
  | OByteRemoveKey c p k, _ => mk_storage (st_accounts s) (filter (fun e => e.1.1 <> (c, p, k)) (st_map s))
  | _, _ => s
  end.

Fixpoint storage_history (s : storage) (ops : list op) (rs : list out) : Prop :=
  match ops, rs with
  | [], [] => True
  | o :: ops', r :: rs' => storage_answer s o r /\ storage_history (storage_next s o r) ops' rs'
  | _, _ => False
  end.

(** C37: [lists d a b]: account [a] lists [b] as a mutual peer. *)
Definition lists (d : db) (a b : N) : Prop := exists l, peer_list d a = Some l /\ b ∈ l.

(** C35: register with raw password [pw], then log in through the client account created at
    registration with raw password [pw']. [Some b]: registration succeeded and the server's verdict
    on the login is [b]. *)
Section Login.
Variables (cid_of : rstring -> N) (sha : list N -> list N) (argon : argon_settings -> list N -> list N).
Definition login_after_registration (cfg : server_cfg) (d : db) (full user pw pw' : rstring) (secret salt1 salt2 : list N)
    (dflt : argon_settings) : option bool :=
  let creds := new_register sha argon full user pw secret salt1 in
  match register cid_of argon cfg d salt2 dflt creds with
  | (d', Some cid) =>
      match d' !! cid with
      | Some srv =>
          let client := new_account (into_auth_store dflt creds) in
          Some (validate_credentials argon srv (generate_connect_credentials sha argon client pw'))
      | None => None
      end
  | (_, None) => None
  end.
End Login.
