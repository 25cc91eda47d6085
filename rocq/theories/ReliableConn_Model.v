(** Messages over a TCP stream: netbeam/src/reliable_conn.rs 104-232.

    The kernel keeps the bytes in order and decides how many it takes from a write and gives to a read.  Left out: errors of the stream other than its end. *)
From stdpp Require Import prelude.
Local Open Scope nat_scope.

(** one direction of a stream: [rs_bytes] is under way, [rs_sent]: the messages for which send_to_peer returned Ok, [rs_got]: what recv returned *)
Record rstream := mk_rstream { rs_bytes : list N; rs_sent : list (list N); rs_got : list (list N) }.
Definition rstream_init : rstream := mk_rstream [] [] [].

(** the capacity of the buffer, reliable_conn.rs 164 and 224 *)
Definition buffer : nat := 4096.

(** send_to_peer of TcpStream, reliable_conn.rs 147-161: one try_write, of which the kernel takes [n] bytes; any [n] is Ok *)
Definition tcp_send (s : rstream) (m : list N) (n : nat) : rstream :=
  mk_rstream (rs_bytes s ++ take n m) (rs_sent s ++ [m]) (rs_got s).
(** send_to_peer of StreamWrapper, reliable_conn.rs 219-221: write_all *)
Definition wrapper_send (s : rstream) (m : list N) : rstream :=
  mk_rstream (rs_bytes s ++ m) (rs_sent s ++ [m]) (rs_got s).
(** recv of both, reliable_conn.rs 163-180, 223-231: one read, to which the kernel gives [n] bytes or fewer, if there are any *)
Definition recv (s : rstream) (n : nat) : rstream :=
  let k := n `min` buffer in
  match take k (rs_bytes s) with
  | [] => s
  | got => mk_rstream (drop k (rs_bytes s)) (rs_sent s) (rs_got s ++ [got])
  end.

Inductive revent := TcpSend (m : list N) (n : nat) | WrapperSend (m : list N) | Recv (n : nat).
Definition rstep (s : rstream) (e : revent) : rstream :=
  match e with TcpSend m n => tcp_send s m n | WrapperSend m => wrapper_send s m | Recv n => recv s n end.
Definition rrun (s : rstream) (es : list revent) : rstream := foldl rstep s es.

(** recv_until_serialized, reliable_conn.rs 113-130, over what recv returns one after the other: [None] is an error, the end of
    the stream is an empty message for ever (169).  [deser]: bincode::deserialize, [f]: the test.  [None]: still loops *)
Fixpoint recv_until {T} (deser : list N → option T) (f : T → bool) (reads : list (option (list N))) : option T :=
  match reads with
  | [] => None
  | Some m :: rest =>
      match deser m with
      | Some p => if f p then Some p else recv_until deser f rest
      | None => recv_until deser f rest
      end
  | None :: rest => recv_until deser f rest
  end.

(** StreamWrapper at two ends, reliable_conn.rs 205-232: recv holds the lock of its end until something comes, and send_to_peer needs it.
    [we_recv]: a recv is under way; [we_wait]: messages whose send_to_peer waits for the lock; [we_in]: what has come *)
Record wend := mk_wend { we_recv : bool; we_wait : list N; we_in : list N }.
Record wworld := mk_wworld { ww_end : bool → wend }.
Definition wworld_init : wworld := mk_wworld (λ _, mk_wend false [] []).
Definition wset (w : wworld) (b : bool) (e : wend) : wworld := mk_wworld (λ x, if Bool.eqb x b then e else ww_end w x).
Inductive wevent :=
| WRecv (b : bool)              (* recv is called, and gets the lock if no other recv is under way *)
| WSend (b : bool) (x : N)      (* send_to_peer is called *)
| WGot (b : bool)               (* the recv under way gets what has come and returns *)
| WNext (b : bool).             (* a send_to_peer that waits gets the lock *)
Definition w_push (w : wworld) (b : bool) (x : N) : wworld :=
  let o := ww_end w (negb b) in wset w (negb b) (mk_wend (we_recv o) (we_wait o) (we_in o ++ [x])).
Definition wstep (w : wworld) (e : wevent) : wworld :=
  match e with
  | WRecv b => let n := ww_end w b in wset w b (mk_wend true (we_wait n) (we_in n))
  | WSend b x => let n := ww_end w b in
      if we_recv n then wset w b (mk_wend true (we_wait n ++ [x]) (we_in n)) else w_push w b x
  | WGot b => let n := ww_end w b in
      if we_recv n then match we_in n with [] => w | _ :: rest => wset w b (mk_wend false (we_wait n) rest) end else w
  | WNext b => let n := ww_end w b in
      if we_recv n then w else match we_wait n with [] => w | x :: rest => w_push (wset w b (mk_wend false rest (we_in n))) b x end
  end.
Definition wrun (w : wworld) (es : list wevent) : wworld := foldl wstep w es.
