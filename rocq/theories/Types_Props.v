(** C26, C43, C44, C45. *)
From stdpp Require Import prelude.
From Verif Require Import Types_Model Types_Proofs.
Local Open Scope N_scope.

(** C43: every byte decodes to at most one valid parameter set, which encodes to that byte; a
    refused byte is the encoding of no valid parameter set. *)
Theorem C43_byte_decoding_exact : forall b, b < 256 ->
  match cp_try_from b with
  | Some p => cp_pack p = b /\ validate_crypto_params p = true
  | None => forall p, validate_crypto_params p = true -> cp_pack p <> b
  end.
Proof. exact cp_byte_exact. Qed.
Print Assumptions C43_byte_decoding_exact.

Theorem C43_params_round_trip : forall p,
  cp_pack p < 256 /\ cp_unpack (cp_pack p) = Some p /\
  (validate_crypto_params p = true -> cp_try_from (cp_pack p) = Some p).
Proof. intros p. split; [exact (cp_pack_byte p)|split; [exact (cp_round_trip p)|exact (cp_try_round_trip p)]]. Qed.
Print Assumptions C43_params_round_trip.

(** The only rule: the hybrid cipher needs a signature scheme. *)
Theorem C43_validity_rule : forall p,
  validate_crypto_params p = true <-> (cp_enc p = MlKemHybrid -> cp_sig p <> SigNone).
Proof. exact hybrid_needs_signature. Qed.
Print Assumptions C43_validity_rule.

Example C43_example :
  cp_try_from 34 = Some (mk_cp MlKemHybrid MlKem FnDsa512) /\ cp_pack (mk_cp MlKemHybrid MlKem FnDsa512) = 34 /\
  cp_try_from 32 = None /\ cp_try_from 4 = None /\ cp_try_from 3 = None /\ cp_try_from 64 = None.
Proof. repeat split. Qed.

(** C44 *)
Theorem C44_security_level_round_trip : forall v, v < 256 -> sl_value (sl_from v) = v.
Proof. exact sl_round_trip. Qed.
Print Assumptions C44_security_level_round_trip.

Theorem C44_same_layers : forall s, sl_value (sl_from (sl_value s)) = sl_value s.
Proof. exact sl_round_trip_value. Qed.
Print Assumptions C44_same_layers.

Theorem C44_injective : forall v w, sl_from v = sl_from w -> v = w.
Proof. exact sl_from_inj. Qed.
Print Assumptions C44_injective.

Theorem C44_range_checked : forall v,
  (v < 256 -> exists s, sl_for_value v = Some s /\ sl_value s = v) /\
  (256 <= v -> sl_for_value v = None).
Proof. exact sl_for_value_spec. Qed.
Print Assumptions C44_range_checked.

Example C44_example : sl_from 3 = Ultra /\ sl_from 5 = Custom 5 /\ sl_value Extreme = 4 /\ sl_for_value 256 = None
  /\ sl_from 0 <> Custom 0 /\ sl_value (sl_from 0) = sl_value (Custom 0).
Proof. repeat split; discriminate. Qed.

(** C45 *)
Theorem C45_compare_decides_equality : forall a b,
  ((const_time_compare a b).1 = true <-> a = b) /\ (const_time_compare a b).2 = length a.
Proof. exact ctc_spec. Qed.
Print Assumptions C45_compare_decides_equality.

Example C45_example :
  const_time_compare [1;2;3] [1;2;3] = (true, 3%nat) /\ const_time_compare [1;2;3] [1;2;3;4] = (false, 3%nat) /\
  const_time_compare [1;2;3] [1;2] = (false, 3%nat) /\ const_time_compare [] [] = (true, 0%nat) /\
  const_time_compare [] [0] = (false, 0%nat).
Proof. repeat split. Qed.

(** C26 *)
Theorem C26_ancestor_is_prefix : forall p q, is_ancestor_of p q = true <-> exists s, q = p ++ s.
Proof. exact ancestor_iff. Qed.
Print Assumptions C26_ancestor_is_prefix.

Theorem C26_partial_order :
  (forall p, is_ancestor_of p p = true) /\
  (forall p q, is_ancestor_of p q = true -> is_ancestor_of q p = true -> p = q) /\
  (forall p q r, is_ancestor_of p q = true -> is_ancestor_of q r = true -> is_ancestor_of p r = true) /\
  (forall p, is_ancestor_of cp_root p = true) /\
  (forall p q r, is_ancestor_of p r = true -> is_ancestor_of q r = true ->
     is_ancestor_of p q = true \/ is_ancestor_of q p = true) /\
  (forall p seg, is_ancestor_of p (cp_child p seg) = true /\ is_ancestor_of (cp_child p seg) p = false).
Proof.
  split; [exact ancestor_refl|]. split; [exact ancestor_antisym|]. split; [exact ancestor_trans|].
  split; [intros p; apply ancestor_iff; by exists p|]. split; [exact ancestors_linear|exact child_strict].
Qed.
Print Assumptions C26_partial_order.

(** Parsing yields non-empty slash-free segments; writing such segments with slashes and parsing
    gives them back. *)
Theorem C26_parse_canonical : forall s, Forall segment_ok (cp_parse s) /\ cp_parse (print (cp_parse s)) = cp_parse s.
Proof. intros s. split; [exact (parse_segments_ok s)|exact (parse_idempotent s)]. Qed.
Print Assumptions C26_parse_canonical.

Theorem C26_parse_of_written : forall p, Forall segment_ok p -> cp_parse (print p) = p.
Proof. exact parse_print. Qed.
Print Assumptions C26_parse_of_written.

(** "/HQ//B/" parses to [HQ; B] *)
Example C26_example :
  cp_parse [47; 72; 81; 47; 47; 66; 47] = [[72; 81]; [66]] /\
  is_ancestor_of [[72; 81]] (cp_parse [47; 72; 81; 47; 47; 66; 47]) = true /\
  is_ancestor_of [[72]] (cp_parse [47; 72; 81; 47; 47; 66; 47]) = false.
Proof. repeat split. Qed.
