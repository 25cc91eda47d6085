(** A partitioned buffer is just a list of byte strings, appended to at the end and rewritten one at
    a time. *)
From stdpp Require Import prelude.
From Verif Require Import SecPacket_Model.
Local Open Scope N_scope.

(** A callback gets a slice: it cannot change the length. *)
Definition cb_ok (f : callback) : Prop := forall w, length (f w).1 = length w.

(** Operations on a partitioned buffer and on the abstract list of parts. *)
Inductive pop := PReserve (idx : nat) (len : N) | PWrite (idx : nat) (f : callback).

Definition total (ps : list (list N)) : N := N.of_nat (length (concat ps)).

(** [n] partitions in all. A reservation is granted for the next free partition only; reserving
    nothing is granted and does nothing. Writing to a partition not reserved yet writes nothing; there
    is no partition beyond the last. *)
Definition spec_step (n : nat) (ps : list (list N)) (o : pop) : list (list N) * bool :=
  match o with
  | PReserve idx len =>
      if ((idx =? length ps) && (idx <? n))%nat
      then (if len =? 0 then ps else ps ++ [repeat 0 (N.to_nat len)], true)
      else (ps, false)
  | PWrite idx f =>
      match ps !! idx with
      | None => (ps, if (idx <? n)%nat then (f []).2 else false)
      | Some w => (<[idx := (f w).1]> ps, (f w).2)
      end
  end.

(** Everything in front of the partition an operation touches is less than 4 GiB. *)
Definition fits (ps : list (list N)) (o : pop) : Prop :=
  match o with
  | PReserve _ _ => total ps < 2 ^ 32
  | PWrite idx _ => (idx < length ps)%nat \/ total ps < 2 ^ 32
  end.

(** The model's answer to the same operation. *)
Definition model_step (b : psb) (o : pop) : option (psb * bool) :=
  match o with
  | PReserve idx len => match reserve b idx len with Some b' => Some (b', true) | None => Some (b, false) end
  | PWrite idx f => with_window b idx f
  end.

(** The builder: payload first, then header, then the extension; bytes as written. *)
Inductive call := WP (len : N) (f : callback) | WH (f : callback).
Inductive phase := Ph0 | Ph1 (pay : list N) | Ph2 (hdr pay : list N).

Definition zeros (n : N) : list N := repeat 0 (N.to_nat n).

(** [n]: header length. Any call out of turn fails and changes nothing. *)
Definition sp_call (n : N) (p : phase) (c : call) : phase * bool :=
  match p, c with
  | Ph0, WP len f => if 2 ^ 32 <=? len + 4 then (Ph0, false) else (Ph1 (f (zeros len)).1, (f (zeros len)).2)
  | Ph1 pay, WH f => (Ph2 (f (zeros n)).1 pay, (f (zeros n)).2)
  | p, _ => (p, false)
  end.
(** Header, 4-byte length of the payload, payload, extension. *)
Definition frame (hdr pay ext : list N) : list N :=
  hdr ++ Bytes.be_enc 4 (N.of_nat (length pay)) ++ pay ++ ext.
Definition sp_finish (p : phase) (len : N) (f : callback) : option (list N) :=
  match p with
  | Ph2 hdr pay => if len =? 0 then Some (frame hdr pay [])
                   else if (f (zeros len)).2 then Some (frame hdr pay (f (zeros len)).1) else None
  | _ => None
  end.

Definition md_call (p : smp) (c : call) : option (smp * bool) :=
  match c with WP len f => write_payload p len f | WH f => write_header p f end.

Fixpoint sp_run (n : N) (p : phase) (cs : list call) : phase * list bool :=
  match cs with
  | [] => (p, [])
  | c :: cs' => let '(p1, r) := sp_call n p c in let '(p2, rs) := sp_run n p1 cs' in (p2, r :: rs)
  end.
Fixpoint md_run (p : smp) (cs : list call) : option (smp * list bool) :=
  match cs with
  | [] => Some (p, [])
  | c :: cs' => match md_call p c with
                | None => None
                | Some (p1, r) => match md_run p1 cs' with None => None | Some (p2, rs) => Some (p2, r :: rs) end
                end
  end.

Definition call_ok (c : call) : Prop := match c with WP _ f => cb_ok f | WH f => cb_ok f end.
(** Header, length field and payload together stay below 4 GiB, or there is no extension. *)
Definition call_fits (n elen : N) (c : call) : Prop :=
  match c with WP len _ => elen = 0 \/ n + len + 4 < 2 ^ 32 | WH _ => True end.
