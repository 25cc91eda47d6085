(** Model of small value types: citadel_types/src/crypto/mod.rs, citadel_types/src/utils/mod.rs,
    citadel_types/src/proto/mod.rs (CommandPath). *)
From stdpp Require Import prelude.
Local Open Scope N_scope.

(** ** CryptoParameters *)

(** crypto/mod.rs:389-395 *)
Inductive enc_alg := AES_GCM_256 | ChaCha20Poly_1305 | MlKemHybrid | Ascon80pq.
(** crypto/mod.rs:471-475 *)
Inductive kem_alg := MlKem.
(** crypto/mod.rs:518-523 *)
Inductive sig_alg := SigNone | MlDsa65 | FnDsa512.

(** crypto/mod.rs:342-349 *)
Record crypto_params := mk_cp { cp_enc : enc_alg; cp_kem : kem_alg; cp_sig : sig_alg }.

(** discriminants, and the inverse generated by PrimitiveEnum_u8 *)
Definition enc_num (e : enc_alg) : N :=
  match e with AES_GCM_256 => 0 | ChaCha20Poly_1305 => 1 | MlKemHybrid => 2 | Ascon80pq => 3 end.
Definition kem_num (k : kem_alg) : N := match k with MlKem => 0 end.
Definition sig_num (s : sig_alg) : N := match s with SigNone => 0 | MlDsa65 => 1 | FnDsa512 => 2 end.
Definition enc_of (n : N) : option enc_alg :=
  match n with 0 => Some AES_GCM_256 | 1 => Some ChaCha20Poly_1305 | 2 => Some MlKemHybrid | 3 => Some Ascon80pq | _ => None end.
Definition kem_of (n : N) : option kem_alg := match n with 0 => Some MlKem | _ => None end.
Definition sig_of (n : N) : option sig_alg :=
  match n with 0 => Some SigNone | 1 => Some MlDsa65 | 2 => Some FnDsa512 | _ => None end.

(** #[packed_struct(bit_numbering = "msb0")], bits 0..=3, 4..=5, 6..=7 (crypto/mod.rs:341-349):
    bit 0 is the most significant. *)
Definition cp_pack (p : crypto_params) : N :=
  N.lor (N.shiftl (enc_num (cp_enc p)) 4) (N.lor (N.shiftl (kem_num (cp_kem p)) 2) (sig_num (cp_sig p))).

Definition cp_unpack (b : N) : option crypto_params :=
  match enc_of (N.shiftr b 4), kem_of (N.land (N.shiftr b 2) 3), sig_of (N.land b 3) with
  | Some e, Some k, Some s => Some (mk_cp e k s)
  | _, _, _ => None
  end.

(** utils/mod.rs:67-86 [validate_crypto_params] *)
Definition validate_crypto_params (p : crypto_params) : bool :=
  let uses_ml_kem := match cp_kem p with MlKem => true end in
  let hybrid := match cp_enc p with MlKemHybrid => true | _ => false end in
  if hybrid && negb uses_ml_kem then false
  else if hybrid && match cp_sig p with SigNone => true | _ => false end then false
  else true.

(** crypto/mod.rs:360-370 [TryFrom<u8>] *)
Definition cp_try_from (b : N) : option crypto_params :=
  match cp_unpack b with
  | Some p => if validate_crypto_params p then Some p else None
  | None => None
  end.

(** ** SecurityLevel *)

(** crypto/mod.rs:561-569 *)
Inductive security_level := Standard | Reinforced | High | Ultra | Extreme | Custom (v : N).

(** crypto/mod.rs:577-586 [value] *)
Definition sl_value (s : security_level) : N :=
  match s with Standard => 0 | Reinforced => 1 | High => 2 | Ultra => 3 | Extreme => 4 | Custom v => v end.

(** crypto/mod.rs:594-605 [From<u8>] *)
Definition sl_from (v : N) : security_level :=
  match v with 0 => Standard | 1 => Reinforced | 2 => High | 3 => Ultra | 4 => Extreme | n => Custom n end.

(** crypto/mod.rs:589-591 [for_value] *)
Definition sl_for_value (v : N) : option security_level :=
  if v <? 256 then Some (sl_from v) else None.

(** ** const_time_compare, utils/mod.rs:46-65. The second component counts loop iterations. *)
Fixpoint ctc_loop (n idx : nat) (this other : list N) (count : nat) (iters : nat) : nat * nat :=
  match n with
  | O => (count, iters)
  | S n' =>
      let count' :=
        match this !! idx, other !! idx with
        | Some a, Some b => (count + (if N.eqb a b then 1 else 0))%nat
        | _, _ => count
        end in
      ctc_loop n' (S idx) this other count' (S iters)
  end.

Definition const_time_compare (this other : list N) : bool * nat :=
  let '(count, iters) := ctc_loop (length this) 0 this other 0 0 in
  (bool_decide (count = length this) && bool_decide (count = length other), iters).

(** ** CommandPath, proto/mod.rs:284-318. A string is a list of code points. *)
Definition rstring : Type := list N.
Definition slash : N := 47.
Definition command_path : Type := list rstring.

Definition cp_root : command_path := [].

(** str::split('/') *)
Fixpoint split_slash (s : rstring) : list rstring :=
  match s with
  | [] => [[]]
  | c :: s' =>
      if c =? slash then [] :: split_slash s'
      else match split_slash s' with
           | [] => [[c]]
           | seg :: segs => (c :: seg) :: segs
           end
  end.

(** proto/mod.rs:293-300 [parse] *)
Definition cp_parse (s : rstring) : command_path :=
  filter (fun seg => seg <> []) (split_slash s).

(** proto/mod.rs:303-307 [child] *)
Definition cp_child (p : command_path) (seg : rstring) : command_path := p ++ [seg].

(** proto/mod.rs:315-317 [is_ancestor_of] *)
Definition is_ancestor_of (p q : command_path) : bool :=
  bool_decide (length p <= length q)%nat && bool_decide (take (length p) q = p).
