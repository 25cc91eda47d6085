(** The key-value store of a connection: citadel_sdk/src/backend_kv_store.rs 47-106, over
    citadel_user/src/backend/memory.rs 325-434 (which backend/file_io_backend.rs 288-353 writes to disk) and
    citadel_user/src/backend/sql_backend.rs 769-911.  Strings and values are numbers.  Left out: the redis backend,
    errors of the database, two operations at once. *)
From stdpp Require Import prelude gmap.
Local Open Scope N_scope.

(** whose data: session_cid, peer_cid and the key of the map, backend_kv_store.rs 45, 102-105 *)
Notation scope := (N * N * N)%type.
Inductive kop :=
| KGet (sc : scope) (k : N)
| KSet (sc : scope) (k v : N)
| KRemove (sc : scope) (k : N)
| KGetAll (sc : scope)
| KRemoveAll (sc : scope).
Inductive kres := RVal (v : option N) | RMap (m : gmap N N).

(** byte_map of an account, citadel_user/src/backend/memory.rs 335-342: by peer, key and sub key *)
Notation bytemap := (gmap N (gmap N (gmap N N))).
Notation mem := (gmap N bytemap).
(** [entry(peer_cid).or_default().entry(key).or_default()], memory.rs 337-340 *)
Definition sub_map (b : bytemap) (p key : N) : gmap N N := default ∅ (default ∅ (b !! p) !! key).
Definition put_sub (b : bytemap) (p key : N) (s : gmap N N) : bytemap := <[p := <[key := s]> (default ∅ (b !! p))]> b.

(** memory.rs 325-346, 370-391, 348-368, 393-413, 415-434: for a session without an account nothing is done *)
Definition mem_step (m : mem) (o : kop) : mem * kres :=
  match o with
  | KGet (s, p, key) k =>
      match m !! s with
      | Some b => (<[s := put_sub b p key (sub_map b p key)]> m, RVal (sub_map b p key !! k))
      | None => (m, RVal None) end
  | KSet (s, p, key) k v =>
      match m !! s with
      | Some b => (<[s := put_sub b p key (<[k := v]> (sub_map b p key))]> m, RVal (sub_map b p key !! k))
      | None => (m, RVal None) end
  | KRemove (s, p, key) k =>
      match m !! s with
      | Some b => (<[s := put_sub b p key (delete k (sub_map b p key))]> m, RVal (sub_map b p key !! k))
      | None => (m, RVal None) end
  | KGetAll (s, p, key) =>
      match m !! s with
      | Some b => (<[s := put_sub b p key (sub_map b p key)]> m, RMap (sub_map b p key))
      | None => (m, RMap ∅) end
  | KRemoveAll (s, p, key) =>
      match m !! s with
      | Some b => (<[s := <[p := delete key (default ∅ (b !! p))]> b]> m, RMap (sub_map b p key))
      | None => (m, RMap ∅) end
  end.
Definition mem_run (m : mem) (os : list kop) : mem := foldl (λ m o, (mem_step m o).1) m os.

(** the table bytemap, sql_backend.rs 189, which has no key; oldest row first *)
Record row := mk_row { row_scope : scope; row_key : N; row_val : N }.
Notation table := (list row).
Definition row_is (sc : scope) (k : N) (r : row) : Prop := row_scope r = sc ∧ row_key r = k.
Global Instance row_is_dec sc k r : Decision (row_is sc k r) := _.
Definition rows_of (t : table) (sc : scope) (k : N) : list N := row_val <$> filter (row_is sc k) t.

(** [pick]: which of several rows a SELECT with LIMIT 1 returns, sql_backend.rs 777 and 834; without an index the oldest.
    sql_backend.rs 769-794, 825-862, 796-823, 864-890, 892-911 *)
Definition sql_all (t : table) (sc : scope) : gmap N N :=
  foldl (λ m r, if decide (row_scope r = sc) then <[row_key r := row_val r]> m else m) ∅ t.
Definition sql_step (pick : list N → option N) (t : table) (o : kop) : table * kres :=
  match o with
  | KGet sc k => (t, RVal (pick (rows_of t sc k)))
  | KSet sc k v => (t ++ [mk_row sc k v], RVal (pick (rows_of t sc k)))
  | KRemove sc k =>
      match pick (rows_of t sc k) with
      | Some v => (filter (λ r, ¬ row_is sc k r) t, RVal (Some v))
      | None => (t, RVal None) end
  | KGetAll sc => (t, RMap (sql_all t sc))
  | KRemoveAll sc => (filter (λ r, row_scope r ≠ sc) t, RMap (sql_all t sc))
  end.
Definition sql_run (pick : list N → option N) (t : table) (os : list kop) : table := foldl (λ t o, (sql_step pick t o).1) t os.
