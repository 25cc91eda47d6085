(** A service run for each client of a server: citadel_sdk/src/prefabs/shared/internal_service.rs 58-155, as the kernel of
    citadel_sdk/src/prefabs/server/internal_service.rs 85-100 runs it, with the end of the node at a request to shut down:
    citadel_proto/src/proto/remote.rs 214-217 and citadel_proto/src/proto/node.rs 239-270, 652-654.  Packets are numbers.
    Simplified: the shutting down, which takes up to a second, is one step; a service that drops its communicator counts as returning;
    a send to the client succeeds.  When a service returns with packets queued, the [select!] at 99-109 polls its branches in a random order, so
    [Forwards] may or may not come before [ServiceReturns]: both are runs of the model. *)
From stdpp Require Import prelude gmap.
Local Open Scope N_scope.

(** the task of one client, internal_service.rs 66-97: [sv_in] was forwarded to the service, [sv_read] is what it has read of that, [sv_written] what the service wrote,
    [sv_queue] what of it waits to be sent, [sv_sent] what was sent to the client; [sv_arrived] is what came from the client *)
Record service := mk_service { sv_arrived : list N; sv_in : list N; sv_read : list N; sv_written : list N; sv_queue : list N; sv_sent : list N; sv_on : bool }.
Definition service_new : service := mk_service [] [] [] [] [] [] true.

(** [nd_on]: the node runs *)
Record snode := mk_snode { nd_on : bool; nd_services : gmap N service }.
Definition snode_init : snode := mk_snode true ∅.

Inductive sevent :=
| Connects (c : N)               (* a client connects, citadel_sdk/src/prefabs/server/client_connect_listener.rs 91-118 *)
| Arrives (c x : N)              (* a packet of the client comes *)
| Reads (c : N)                  (* the service reads what was forwarded *)
| Writes (c x : N)               (* the service writes, internal_service.rs 124-134, a queue without bound *)
| Forwards (c : N)               (* a packet of the service is sent, internal_service.rs 91-95 *)
| ServiceReturns (c : N)         (* internal_service.rs 106-108 *)
| ChannelEnds (c : N).           (* the client is gone, internal_service.rs 81, 87 *)

Definition on_service (n : snode) (c : N) (f : service → service) : snode :=
  match nd_services n !! c with
  | Some s => if nd_on n && sv_on s then mk_snode (nd_on n) (<[c := f s]> (nd_services n)) else n
  | None => n
  end.
Definition sv_stop (s : service) : service := mk_service (sv_arrived s) (sv_in s) (sv_read s) (sv_written s) [] (sv_sent s) false.

(** internal_service.rs 99-114: whichever of the three ends first ends the others, with what is queued; and then the node is told to shut down, which
    ends all sessions *)
Definition service_ends (n : snode) (c : N) : snode :=
  match nd_services n !! c with
  | Some s => if nd_on n && sv_on s then mk_snode false (sv_stop <$> nd_services n) else n
  | None => n
  end.

Definition sstep (n : snode) (e : sevent) : snode :=
  match e with
  | Connects c => if nd_on n then match nd_services n !! c with None => mk_snode true (<[c := service_new]> (nd_services n)) | Some _ => n end else n
  | Arrives c x => on_service n c (λ s, mk_service (sv_arrived s ++ [x]) (sv_in s ++ [x]) (sv_read s) (sv_written s) (sv_queue s) (sv_sent s) true)
  | Reads c => on_service n c (λ s, match sv_in s with [] => s | x :: r => mk_service (sv_arrived s) r (sv_read s ++ [x]) (sv_written s) (sv_queue s) (sv_sent s) true end)
  | Writes c x => on_service n c (λ s, mk_service (sv_arrived s) (sv_in s) (sv_read s) (sv_written s ++ [x]) (sv_queue s ++ [x]) (sv_sent s) true)
  | Forwards c => on_service n c (λ s, match sv_queue s with [] => s | x :: q => mk_service (sv_arrived s) (sv_in s) (sv_read s) (sv_written s) q (sv_sent s ++ [x]) true end)
  | ServiceReturns c | ChannelEnds c => service_ends n c
  end.
Definition srun (n : snode) (es : list sevent) : snode := foldl sstep n es.
