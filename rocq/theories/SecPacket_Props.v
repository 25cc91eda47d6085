(** C16: the in-place packet builder. *)
From Coq Require Import ZifyBool ZifyNat ZifyN.
From stdpp Require Import prelude.
From Verif Require Import Bytes SecPacket_Model SecPacket_Spec SecPacket_Proofs.
Local Open Scope N_scope.

(** The partitioned buffer refines the list of its parts: every operation that the abstract list
    allows has the same result, the bytes are the parts one after the other, a write changes one part
    only, and nothing panics - as long as what lies in front of the touched part is below 4 GiB. *)
Fixpoint spec_runs (n : nat) (ps : list (list N)) (os : list pop) : list (list N) * list bool :=
  match os with
  | [] => (ps, [])
  | o :: os' => let '(p1, r) := spec_step n ps o in let '(p2, rs) := spec_runs n p1 os' in (p2, r :: rs)
  end.
Fixpoint model_runs (b : psb) (os : list pop) : option (psb * list bool) :=
  match os with
  | [] => Some (b, [])
  | o :: os' => match model_step b o with
                | None => None
                | Some (b1, r) => match model_runs b1 os' with None => None | Some (b2, rs) => Some (b2, r :: rs) end
                end
  end.
Fixpoint all_fit (n : nat) (ps : list (list N)) (os : list pop) : Prop :=
  match os with
  | [] => True
  | o :: os' => fits ps o /\ (forall i f, o = PWrite i f -> cb_ok f) /\ all_fit n (spec_step n ps o).1 os'
  end.

Theorem C16_partitions n os : (0 < n)%nat -> all_fit n [] os ->
  exists b0 b, psb_new n = Some b0 /\ model_runs b0 os = Some (b, (spec_runs n [] os).2) /\
    buf b = concat (spec_runs n [] os).1.
Proof.
  intros Hn. destruct (rep_new n Hn) as (b0 & E & R). remember [] as ps eqn:Eps. clear Eps.
  intros Hf. exists b0. cut (exists b, model_runs b0 os = Some (b, (spec_runs n ps os).2) /\ rep n (spec_runs n ps os).1 b).
  { intros (b & H1 & H2). exists b. split_and!; try done. apply H2. }
  clear E Hn. revert ps b0 R Hf. induction os as [|o os IH]; intros ps b0 R Hf; cbn [model_runs spec_runs all_fit] in *; [by exists b0|].
  destruct Hf as (F1 & F2 & F3). destruct (rep_step n ps b0 o R F1 F2) as (b1 & E1 & R1). rewrite E1.
  destruct (spec_step n ps o) as [p1 r]. cbn [fst snd] in *. destruct (IH p1 b1 R1 F3) as (b & E2 & R2). rewrite E2.
  destruct (spec_runs n p1 os) as [p2 rs]. cbn [fst snd] in *. by exists b.
Qed.

(** C16. For every header length, every sequence of payload and header calls (in or out of order,
    with callbacks that succeed or fail) and every final extension: each call's result and the final
    bytes are those of the simple description: header, length, payload, extension as written; calls
    out of order fail and change nothing. *)
Theorem C16_builder n elen cs ext : 0 < n < 2 ^ 32 ->
  Forall call_ok cs -> Forall (call_fits n elen) cs -> cb_ok ext ->
  exists p0 p, smp_new n = Some p0 /\ md_run p0 cs = Some (p, (sp_run n Ph0 cs).2) /\
    write_ext p elen ext = Some (sp_finish (sp_run n Ph0 cs).1 elen ext).
Proof.
  intros Hn H1 H2 H3. destruct (brep_new n elen Hn) as (p0 & E0 & B0).
  destruct (brep_run n elen cs Ph0 p0 B0 H1 H2) as (p & E1 & B1).
  exists p0, p. split_and!; try done. by apply (brep_finish n).
Qed.

(** What the peer extracts after removing the header. *)
Theorem C16_extract hdr pay ext : N.of_nat (length pay) < 2 ^ 32 ->
  extract_payload (drop (length hdr) (frame hdr pay ext)) = Some (pay, ext).
Proof. intros H. unfold frame. rewrite drop_app. by apply extract_ok. Qed.

(** The 4 GiB limit is real (release build; a debug build panics): with header, length and payload of
    exactly 2^32 bytes, the extension callback is handed the whole packet to overwrite. *)
Theorem C16_limit_is_sharp n fp fh elen ext : 0 < n < 2 ^ 32 - 4 -> 0 < elen ->
  cb_ok fp -> cb_ok fh -> cb_ok ext ->
  let len := 2 ^ 32 - 4 - n in
  exists p0 p, smp_new n = Some p0 /\ md_run p0 [WP len fp; WH fh] = Some (p, [(fp (zeros len)).2; (fh (zeros n)).2]) /\
    write_ext p elen ext =
      Some (let whole := frame (fh (zeros n)).1 (fp (zeros len)).1 (zeros elen) in if (ext whole).2 then Some (ext whole).1 else None).
Proof.
  intros Hn He H1 H2 H3 len. destruct (brep_new n 0) as (p0 & E0 & B0); [lia|].
  destruct (brep_run n 0 [WP len fp; WH fh] Ph0 p0 B0) as (p & E1 & B1).
  { by repeat constructor. }
  { constructor; [by left|]. by repeat constructor. }
  exists p0, p. cbn [sp_run sp_call] in *.
  assert (Hlen : (2 ^ 32 <=? len + 4) = false) by (apply N.leb_gt; lia).
  rewrite Hlen in *. cbn [fst snd] in *. split_and!; try done.
  apply (overflow_window n (fh (zeros n)).1 (fp (zeros len)).1 p elen ext B1); try done.
  rewrite H1, zeros_length. lia.
Qed.

(** A header length of zero makes the builder unusable (an empty partition counts as unreserved). *)
Theorem C16_empty_header_unusable : exists p0, smp_new 0 = Some p0 /\
  forall len f, len < 2 ^ 32 -> write_payload p0 len f = Some (p0, false).
Proof.
  eexists. split; [done|]. intros len f _. cbn [write_payload].
  destruct (2 ^ 32 <=? len + 4); [done|]. done.
Qed.

Definition put (l : list N) : callback := fun w => (take (length w) (l ++ repeat 0 (length w)), true).
Lemma put_ok l : cb_ok (put l).
Proof. intros w. unfold put. cbn [fst]. rewrite take_length, app_length, repeat_length. lia. Qed.

(** A header call too early and a second payload call are refused; the packet is intact. *)
Example C16_case :
  (smp_new 3 ≫= fun p => md_run p [WH (put [9]); WP 2 (put [7; 8]); WP 1 (put [1]); WH (put [4; 5; 6]); WH (put [1])] ≫= fun q =>
    Some (q.2, write_ext q.1 2 (put [21; 22])))
  = Some ([false; true; false; true; false], Some (Some [4; 5; 6; 0; 0; 0; 2; 7; 8; 21; 22])).
Proof. vm_compute. done. Qed.
Example C16_case_extract : extract_payload [0; 0; 0; 2; 7; 8; 21; 22] = Some ([7; 8], [21; 22]).
Proof. vm_compute. done. Qed.

Print Assumptions C16_partitions.
Print Assumptions C16_builder.
Print Assumptions C16_extract.
Print Assumptions C16_limit_is_sharp.
Print Assumptions C16_empty_header_unusable.
