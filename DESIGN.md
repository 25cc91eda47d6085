# Design of the formal model

Subject: Avarok-Cybersecurity/Citadel-Protocol (Rust), source in `/repo`, read as text, never built or run.
Prover: Rocq/Coq 8.16.1. Build: `cd rocq && coq_makefile -f _CoqProject -o Makefile && make -j4`.

## Layout

For every area `X` of the code there are up to four kinds of files in `rocq/theories`:

* `X_Model.v`  – Gallina transcription of the Rust functions. No proofs. Each definition cites file and lines.
* `X_Spec.v`   – the vocabulary of the English property (sets, sequences, histories, abstract machines). Says what is
  wanted, not how the model does it.
* `X_Proofs.v` (for the larger areas several: `Splitter_Sender.v`, `TreeMath_Proofs.v`, …) – lemmas.
* `X_Props.v`  – the property theorems, `Example`s with concrete non-trivial instances, and `Print Assumptions`.

Conventions: `&mut self` methods return the new state; `Result`/`Option` stay data; a panic is an explicit outcome.
Integers are `N` (or `nat` for lengths); wrap-around (`mod 2^32`, `mod 2^64`) and saturation are written out where the
code has them. Loops become structural recursion or recursion on fuel; where fuel is used, a lemma shows that it never
runs out on the inputs the theorem covers. Interleaved executions are lists of operations (each operation is what the
Rust code does under one lock or in one atomic step) or inductive step relations; theorems quantify over all of them.
Cryptography is a record of functions with the assumed laws in a second record, given to the theorem as a premise and
instantiated by a concrete or symbolic example, so that the premise can be met. No axioms are added.

## When the code does not have the property

Properties are stated as users would state them. If the code violates one, `…_refuted` proves that, with a concrete
witness (an input or a trace of calls), and `…_partial` proves the strongest part found to be true, with what is
missing in the comment above it. The manifest calls such properties `partial`, never `proved`.

## What is modelled, and how it is proved

| ids | modelled code | model | proof method |
|-----|---------------|-------|--------------|
| C01–C03 | `citadel_pqcrypto/replay_attack_container.rs`, all | Replay | invariant relating (high-water mark, set) to the accepted IDs; induction over arrivals |
| C04–C05 | `protect_packet_in_place`, `validate_packet_in_place` (`citadel_pqcrypto/lib.rs`), the layers of `citadel_crypt/ratchets/mod.rs`, nonce trailer | Protect | round trip by induction on layers; ideal AEAD; invariant over send/arrive traces |
| C06–C07, C53 | `generate_recursive_keystore`, Alice/Bob constructors of the stacked ratchet, export | KeySched | functions of the transcript; agreement; refutation by stripping signatures |
| C08 | `citadel_crypt/ordered_channel.rs`, all | Ordered | refinement to "longest initial segment received" |
| C09–C10 | `citadel_crypt/toolset.rs`, all, wrap-around included | Toolset | ghost history of installed ratchets |
| C11, C64–C65 | `ratchet_manager.rs` re-key loop and triggers, `endpoint_crypto_container.rs`, `sync_toggle.rs` | Rekey | two-node transition system over FIFO links; inductive invariant over all schedules; schedules as witnesses |
| C12, C17–C18 | `packet.rs` (header, obfuscator), `packet_vector.rs` | Packet | big-endian codec round trip, modular arithmetic, permutations |
| C13–C15, C50–C52 | `scramble/crypt_splitter.rs`: description, its validation, waves, receiver, sender | Splitter | arithmetic on lengths, receiver invariant, counterexamples for exact multiples |
| C16 | `sec_packet.rs`, `partitioned_sec_buffer.rs` | SecPacket | refinement to list concatenation |
| C19–C24, C57–C58 | `citadel_treekem`: `tree/*`, `path.rs`, `group.rs`, `schedule.rs`, `application.rs`, `welcome.rs` | Tree | index lemmas; invariant of the group over all histories; symbolic derivability for secrecy after removal |
| C57 | commits from anyone: `process_commit` of `group.rs` on slots of the tree | Commit | size invariant of the tree; every helper total on in-range slots |
| C23, C55–C58 | `peer/group_cgka/mod.rs` | GroupSession | simulation of the owner's history |
| C25–C26, C59–C60, C85 | `hierarchy.rs`, `hierarchy_member.rs`, `group_cgka/hierarchy.rs`, `CommandPath` | Hierarchy, Types | induction on paths, derivability |
| C27 | `disconnect_tracker.rs` | Disconnect | induction over operations |
| C28–C30, C39, C61–C63 | server half of `group_broadcast.rs`, group and mailbox functions of `peer_layer.rs`, `session_manager.rs` | GroupServer, GroupWire | invariants over signal sequences; attack traces |
| C31 | tracked postings of `peer_layer.rs` | Postings | invariant over call sequences |
| C32–C33, C79 | admission, upgrade and teardown of sessions: `session_manager.rs`, SYN and connect stage, clean-up tasks | SessionManager | history of clearances linked to the state; race traces |
| C34–C38, C48, C54 | `citadel_user`: credentials, accounts, `backend/memory.rs`, peer lists | Accounts | case analysis, invariants over histories |
| C40–C42, C66–C67 | `netbeam/sync/primitives/net_mutex.rs` | NetMutex | two-node transition system; inductive invariant; deadlock traces |
| C43–C45 | `citadel_types` codecs and comparisons | Types | enumeration lifted to a universal statement; induction |
| C46 | `session_queue_handler.rs`, all | SessionQueue | refinement to independent timers; collision trace |
| C47, C49 | `entropy_bank.rs`, the static ratchet's window | Nonce, Protect | injectivity modulo 2^64; replay trace |
| C80–C82, C84 | one direction of a channel: `messaging.rs`, `send_ratchet_message` and the numbers of file transfers in `session.rs`, `channels.rs`, both ordered channels | Channel | numbered messages traced through every stage; conservation and wake-up invariants; loss traces |
| C83 | triggers of `ratchet_manager.rs` and the version their packets are made with | Perfect (on Rekey) | monotonicity of the declared version over the C11 invariant; race trace |
| C86–C90 | one file transfer: `process_outbound_file`, `inbound_transfer.rs`, `outbound_transfer.rs`, the group counters, the cutting of files and of stored files | Transfer | invariant over both message histories; measure for termination; traces |
| C91–C94 | names, paths, storing, pulling and deleting in the virtual filesystem, who is asked about a file header (`file_io_backend.rs`, `misc.rs`, `file_packet.rs`, `inbound_transfer.rs`) | Vfs | lemmas on paths as strings; refinement of a map; induction over events; traces |
| C95–C99 | operations of two nodes: `netbeam/sync/operations/net_select_ok.rs`, `net_select.rs`, `net_try_join.rs`, `net_join.rs` | Consensus | two-node transition system with queues; inductive invariant; measure for the end; traces |
| C100–C104 | subscriptions: `netbeam/multiplex.rs`, `sync/network_application.rs`, `sync/subscription.rs` | Multiplex | two-node transition system; inductive invariants on numbering, tables and messages on their way; measure; traces |
| C105–C109 | network read-write lock: `netbeam/sync/primitives/net_rwlock.rs` | RwLock | two-node transition system; finite abstraction whose reachable states are enumerated and proved closed, with a simulation of all runs; traces |
| C110–C118 | requests, subscriptions and the kernel executor: `citadel_proto/kernel/kernel_communicator.rs`, `kernel_executor.rs`, `proto/node.rs` (request loop), `node_result.rs`, `node_request.rs`, `remote.rs`, `misc/threading.rs`, waiting calls of `citadel_sdk/remote_ext.rs` | Kernel | transition system; routing invariant, trace equations, silent continuations |
| C119–C137 | registration, login and deregistration: `citadel_proto/proto/packet_processor/register_packet.rs`, `preconnect_packet.rs`, `connect_packet.rs`, `deregister_packet.rs`, `validation.rs`, ends of sessions in `session.rs` and `session_manager.rs`, `citadel_user/account_manager.rs` (registering, deleting) | Login | one node with arbitrary many sessions against arbitrary packets; invariants tied to the history; two honest nodes run symbolically; attack traces |
| C138–C153 | a client's peer connections: `citadel_proto/proto/session.rs` (dispatch_peer_command), `packet_processor/peer_cmd_packet.rs` (client half), `virtual_connections.rs` (create_virtual_connection), parts of `p2p_conn_handler.rs`, `misc/channel.rs`, `primary_group_packet.rs` | PeerClient | one client against arbitrary signals, invariants tied to the history; two clients and the relaying server explored over every order of events |
| C154–C156 | keep-alives: `citadel_proto/proto/state_container/monitoring.rs`, `packet_processor/keep_alive_packet.rs`, `state_subcontainers/meta_expiry_container.rs`, the periodic check of `session.rs` | KeepAlive | one node with its clock against arbitrary events; rounds of two live nodes |
| C157–C160 | two-way channel: `netbeam/sync/channel/bi_channel.rs` | BiChannel | two-node transition system with queues; inductive invariant for each direction; traces |
| C161–C164 | requests and answers within a program: `netbeam/sync/tracked_callback_channel.rs` | Callback | transition system; inductive invariants on ids, slots and calls; traces |
| C165–C166 | synchronised start: `netbeam/sync/sync_start.rs` | SyncStart | true times of the messages and arbitrary clocks; arithmetic; traces |
| C167–C170 | messages over a stream: `netbeam/reliable_conn.rs` | ReliableConn | stream of bytes with arbitrary cuts by the kernel; two ends with their locks; induction; traces |
| C171–C174 | key-value store of a connection: `citadel_sdk/backend_kv_store.rs`, `citadel_user/backend/memory.rs`, `sql_backend.rs` (the operations on byte maps) | KvStore | both backends against the value a history of operations gives; induction over histories; traces |
| C175–C177 | a service for each client of a server: `citadel_sdk/prefabs/shared/internal_service.rs`, `prefabs/server/internal_service.rs`, shutting down in `citadel_proto/proto/node.rs` | InternalService | traces of one client's end; invariant of each client's queues over all runs |
| C68–C78 | `process_signal_command_as_server` (`peer_cmd_packet.rs` 1078–1829), `post_register.rs`, `post_connect.rs`, `check_proxy` | PeerServer | invariants over request sequences of honest and forging clients; attack traces |

Simplifications of each area are listed at the head of its `_Model.v` and, where they concern one definition, there.

## Not modelled

* The cryptographic primitives themselves (AES-GCM, ChaCha20, Ascon, Kyber, Falcon, BLAKE3, SHA-3, Argon2), random
  number generation, zeroisation of memory, timing.
* Serialisation (`bincode`): values travel as values, except for the packet header, whose bytes are modelled.
* The async runtime, sockets, TLS/QUIC/WebRTC, NAT traversal (`citadel_wire`), `netbeam` apart from multiplexing, the network mutex and read-write lock, the joint operations, the two-way channel, the tracked callback channel, the synchronised start and messages over a TCP stream.
* SQL and Redis backends, how the file-system backend stores accounts, Firebase, the SDK and the macros; disk errors and timers of file transfers.
* Hole punching, UDP channels and files in `peer_cmd_packet.rs` and `p2p_conn_handler.rs`, most of the packet crafter, UDP.
* Liveness that depends on the scheduler or on the network, except where a theorem says so.

## Trusted base

* The Coq kernel, and `coqchk`, which the gate runs.
* The axioms `Print Assumptions` lists for the property theorems: none. Each of the 455 theorems in the table below
  is "Closed under the global context".
* The transcription from Rust to Gallina, which is by hand. The comments say which lines a definition stands for.
* That the English statement in `properties.jsonl` is what the Coq statement says; the `_Spec.v` files are short so that
  this can be read. The theorems have been tried against wrong programs: `seeded/LOG.jsonl` lists edits of the model
  that break a claim and the theorems that then fail.

| id | status | file | theorems | axioms (`Print Assumptions`) |
|----|--------|------|----------|------|
| C01 | proved | Replay_Props.v | `C01_no_id_accepted_twice`, `C01_issued_ids_distinct` | none |
| C02 | proved | Replay_Props.v | `C02_verdict_is_window_rule` | none |
| C03 | proved | Replay_Props.v | `C03_memory_bounded`, `C03_only_accepted_remembered` | none |
| C04 | partial | Protect_Props.v | `C04_at_most_once_unmodified`, `C04_forgery_changes_nothing`, `C04_reject_level0_partial`, `C04_refuted` | none |
| C05 | proved | Protect_Props.v | `C05_round_trip`, `C05_levels_checked`, `C05_no_level_change` | none |
| C06 | proved | KeySched_Props.v | `C06_both_ends_match`, `C06_level_limit` | none |
| C07 | proved | KeySched_Props.v | `C07_different_passwords_fail`, `C07_only_concatenation_counts`, `C07_raw_lists_ambiguous` | none |
| C08 | proved | Ordered_Props.v | `C08_prefix`, `C08_exact`, `C08_no_invention`, `C08_monotone`, `C08_buffer_only_undelivered` | none |
| C09 | proved | Toolset_Props.v | `C09_lookup_exact`, `C09_endpoints` | none |
| C10 | proved | Toolset_Props.v | `C10_truncation_exact`, `C10_refused_update_changes_nothing`, `C10_refused_truncation_changes_nothing`, `C10_capacity_respected` | none |
| C11 | proved | Rekey_Props.v | `C11_no_round_fails`, `C11_always_readable`, `C11_never_two_keys`, `C11_versions_close`, `C11_idle_agree`, `C11_completion_advances`, `C11_key_never_replaced` | none |
| C12 | proved | Packet_Props.v | `C12_coordinates_decode`, `C12_decode_sound` | none |
| C13 | partial | Splitter_Props.v | `C13_reassembly_partial`, `C13_symmetric_partial`, `C13_exact_multiple_refuted` | none |
| C14 | partial | Splitter_Props.v | `C14_accepted_partial`, `C14_symmetric_partial`, `C14_multiples_refuted` | none |
| C15 | partial | Splitter_Props.v | `C15_all_waves_partial`, `C15_receiver_partial`, `C15_duplicate_ack_refuted`, `C15_never_finishes_refuted` | none |
| C16 | proved | SecPacket_Props.v | `C16_partitions`, `C16_builder`, `C16_extract`, `C16_limit_is_sharp`, `C16_empty_header_unusable` | none |
| C17 | proved | Packet_Props.v | `C17_header_round_trip`, `C17_header_reparse`, `C17_short_refused` | none |
| C18 | proved | Packet_Props.v | `C18_obfuscation_transparent`, `C18_payload_untouched` | none |
| C19 | proved | Tree_Props.v | `C19_paths_are_ancestors`, `C19_copath_partitions`, `C19_tree_exists` | none |
| C20 | proved | Tree_Props.v | `C20_resolution_reaches_members`, `C20_keys_known_only_below` | none |
| C21 | proved | Tree_Props.v | `C21_members_agree`, `C21_commit_effect`, `C21_members_read_each_other` | none |
| C22 | proved | Tree_Props.v | `C22_removed_member_locked_out`, `C22_only_current_members`, `C22_histories_complete` | none |
| C23 | proved | GroupSession_Props.v | `C23_gate`, `C23_any_delivery`, `C23_prefix_agrees`, `C23_epoch_numbers` | none |
| C24 | partial | Tree_Props.v | `C24_one_key_per_message_partial`, `C24_one_key_per_message_refuted`, `C24_opened_only_in_its_epoch` | none |
| C25 | proved | Hierarchy_Props.v | `C25_superiors_read`, `C25_units_exist`, `C25_others`, `C25_unit_secret`, `C25_message_secret`, `C25_demoted_reads_nothing` | none |
| C26 | proved | Types_Props.v | `C26_ancestor_is_prefix`, `C26_partial_order`, `C26_parse_canonical`, `C26_parse_of_written` | none |
| C27 | proved | Disconnect_Props.v | `C27_answers_exact`, `C27_at_most_one`, `C27_first_granted` | none |
| C28 | partial | GroupServer_Props.v | `C28_refuted`, `C28_members_asked_partial`, `C28_if_owner_accepts_partial` | none |
| C29 | partial | GroupServer_Props.v, GroupWire_Props.v | `C29_exactly_the_members_partial`, `C29_nothing_else`, `C29_removed_gets_nothing`, `C29_refuted`, `C29_header_partial` | none |
| C30 | partial | GroupServer_Props.v, GroupWire_Props.v | `C30_only_the_owner_removes_partial`, `C30_one_signal_partial`, `C30_refuted`, `C30_end_refuted`, `C30_header_partial` | none |
| C31 | partial | Postings_Props.v | `C31_at_most_once`, `C31_not_early_partial`, `C31_refuted`, `C31_after_reconnect_refuted` | none |
| C32 | partial | SessionManager_Props.v | `C32_refuted`, `C32_late_release_refuted`, `C32_registration_refuted`, `C32_partial`, `C32_full_refuted`, `C32_waited_partial` | none |
| C33 | partial | SessionManager_Props.v | `C33_replacement_stays`, `C33_same_instant_refuted` | none |
| C34 | partial | Accounts_Props.v | `C34_refuted`, `C34_partial` | none |
| C35 | partial | Accounts_Props.v | `C35_refuted`, `C35_partial`, `C35_only_that_password_partial` | none |
| C36 | proved | Accounts_Props.v | `C36_id_reused_only_after_delete`, `C36_name_reused_only_after_delete`, `C36_unique_names`, `C36_registration_effect` | none |
| C37 | partial | Accounts_Props.v | `C37_symmetric_partial`, `C37_deregister_partial`, `C37_refuted`, `C37_self_registration_hangs` | none |
| C38 | proved | Accounts_Props.v | `C38_storage_is_a_map` | none |
| C39 | partial | GroupServer_Props.v | `C39_refuted`, `C39_at_most_once_partial`, `C39_exactly_once_partial`, `C39_next_connect_partial` | none |
| C40 | proved | NetMutex_Props.v | `C40_mutual_exclusion` | none |
| C41 | partial | NetMutex_Props.v | `C41_refuted`, `C41_lost_wakeup_refuted`, `C41_lone_request_partial`, `C41_hand_over_partial` | none |
| C42 | proved | NetMutex_Props.v | `C42_guard_sees_last_write`, `C42_held_value_is_last_write` | none |
| C43 | proved | Types_Props.v | `C43_byte_decoding_exact`, `C43_params_round_trip`, `C43_validity_rule` | none |
| C44 | proved | Types_Props.v | `C44_security_level_round_trip`, `C44_same_layers`, `C44_injective`, `C44_range_checked` | none |
| C45 | proved | Types_Props.v | `C45_compare_decides_equality` | none |
| C46 | partial | SessionQueue_Props.v | `C46_refuted`, `C46_wrap_refuted`, `C46_partial`, `C46_full_refuted` | none |
| C47 | proved | Nonce_Props.v | `C47_nonces_distinct`, `C47_bound_is_sharp`, `C47_restored_copy`, `C47_receiver_nonce`, `C47_short_buffer_refused` | none |
| C48 | partial | Accounts_Props.v | `C48_rule_in_bytes_partial`, `C48_ascii_partial`, `C48_refuted`, `C48_password_rule_not_applied` | none |
| C49 | partial | Protect_Props.v | `C49_refuted`, `C49_nothing_invented_partial` | none |
| C50 | partial | Splitter_Props.v | `C50_no_crash_partial`, `C50_crash_refuted` | none |
| C51 | proved | Splitter_Props.v | `C51_memory` | none |
| C52 | partial | Splitter_Props.v | `C52_waves_swapped_refuted`, `C52_integrity_refuted`, `C52_only_decrypted_partial` | none |
| C53 | partial | KeySched_Props.v | `C53_responder_bad_signature_partial`, `C53_responder_all_layers_partial`, `C53_initiator_bad_signature_partial`, `C53_stripped_refuted` | none |
| C54 | proved | Accounts_Props.v | `C54_no_passwordless_account` | none |
| C55 | partial | GroupSession_Props.v | `C55_refuted`, `C55_owner_gate_partial` | none |
| C56 | partial | GroupSession_Props.v | `C56_refuted`, `C56_secrets_kept_partial` | none |
| C57 | partial | Commit_Props.v, GroupSession_Props.v | `C57_partial`, `C57_sizes_partial`, `C57_refuted` | none |
| C58 | partial | GroupSession_Props.v | `C58_refuted`, `C58_partial`, `C58_refused_partial` | none |
| C59 | partial | Hierarchy_Props.v | `C59_refuted`, `C59_partial`, `C59_next_demotion_partial` | none |
| C60 | partial | Hierarchy_Props.v | `C60_refuted`, `C60_owner_refuted`, `C60_partial`, `C60_owner_only_partial` | none |
| C61 | partial | GroupServer_Props.v | `C61_refuted`, `C61_some_session_partial` | none |
| C62 | partial | GroupServer_Props.v | `C62_refuted`, `C62_add_partial` | none |
| C63 | partial | GroupServer_Props.v | `C63_refuted`, `C63_partial`, `C63_invited_partial` | none |
| C64 | partial | Rekey_Props.v | `C64_partial`, `C64_refuted` | none |
| C65 | partial | Rekey_Props.v | `C65_alone_partial`, `C65_refuted` | none |
| C66 | partial | NetMutex_Props.v | `C66_refuted` | none |
| C67 | partial | NetMutex_Props.v | `C67_refuted` | none |
| C68 | partial | PeerServer_Props.v | `C68_refuted`, `C68_partial` | none |
| C69 | partial | PeerServer_Props.v | `C69_refuted`, `C69_partial` | none |
| C70 | partial | PeerServer_Props.v | `C70_refuted`, `C70_forged_refuted`, `C70_partial` | none |
| C71 | partial | PeerServer_Props.v | `C71_refuted`, `C71_partial` | none |
| C72 | partial | PeerServer_Props.v | `C72_refuted`, `C72_partial` | none |
| C73 | partial | PeerServer_Props.v | `C73_refuted`, `C73_partial` | none |
| C74 | partial | PeerServer_Props.v | `C74_refuted`, `C74_partial` | none |
| C75 | partial | PeerServer_Props.v | `C75_refuted`, `C75_connect_refuted`, `C75_partial` | none |
| C76 | proved | PeerServer_Props.v | `C76_disconnect_clears` | none |
| C77 | proved | PeerServer_Props.v | `C77_reaches_once`, `C77_refused` | none |
| C78 | proved | PeerServer_Props.v | `C78_matched` | none |
| C79 | partial | SessionManager_Props.v | `C79_refuted`, `C79_late_task_refuted`, `C79_partial` | none |
| C80 | proved | Channel_Props.v | `C80_prefix` | none |
| C81 | partial | Channel_Props.v | `C81_refuted`, `C81_file_refuted`, `C81_error_refuted`, `C81_queue_refuted`, `C81_drop_refuted`, `C81_partial` | none |
| C82 | partial | Channel_Props.v | `C82_refuted`, `C82_partial`, `C82_no_riders_partial` | none |
| C83 | partial | Perfect_Props.v | `C83_refuted`, `C83_named_partial`, `C83_partial` | none |
| C84 | partial | Channel_Props.v | `C84_refuted`, `C84_partial` | none |
| C85 | partial | Hierarchy_Props.v | `C85_refuted`, `C85_partial` | none |
| C86 | partial | Transfer_Props.v | `C86_refuted`, `C86_prefix_partial`, `C86_partial` | none |
| C87 | partial | Transfer_Props.v | `C87_refuted`, `C87_bound_partial`, `C87_partial`, `C87_declined` | none |
| C88 | partial | Transfer_Props.v | `C88_refuted`, `C88_partial` | none |
| C89 | partial | Transfer_Props.v | `C89_refuted`, `C89_partial` | none |
| C90 | partial | Transfer_Props.v | `C90_refuted`, `C90_partial`, `C90_only_partial`, `C90_size_partial` | none |
| C91 | proved | Vfs_Props.v | `C91_virtual`, `C91_transfer`, `C91_separate` | none |
| C92 | partial | Vfs_Props.v | `C92_refuted`, `C92_partial`, `C92_outside_partial` | none |
| C93 | partial | Vfs_Props.v | `C93_refuted`, `C93_partial` | none |
| C94 | partial | Vfs_Props.v | `C94_refuted`, `C94_partial`, `C94_once_partial`, `C94_declined` | none |
| C95 | proved | Consensus_Props.v | `C95_one_winner`, `C95_global_failure`, `C95_net_select` | none |
| C96 | proved | Consensus_Props.v | `C96_select`, `C96_join`, `C96_select_waits`, `C96_join_waits` | none |
| C97 | partial | Consensus_Props.v | `C97_refuted`, `C97_partial` | none |
| C98 | partial | Consensus_Props.v | `C98_refuted`, `C98_partial` | none |
| C99 | partial | Consensus_Props.v | `C99_refuted`, `C99_partial`, `C99_net_join` | none |
| C100 | proved | Multiplex_Props.v | `C100_in_order`, `C100_complete` | none |
| C101 | partial | Multiplex_Props.v | `C101_refuted` | none |
| C102 | proved | Multiplex_Props.v | `C102_paired` | none |
| C103 | partial | Multiplex_Props.v | `C103_refuted`, `C103_partial`, `C103_finite` | none |
| C104 | partial | Multiplex_Props.v | `C104_refuted`, `C104_partial`, `C104_only_dropped` | none |
| C105 | partial | RwLock_Props.v | `C105_partial`, `C105_one_kind`, `C105_refuted`, `C105_two_writers_refuted` | none |
| C106 | partial | RwLock_Props.v | `C106_partial`, `C106_held_partial`, `C106_refuted` | none |
| C107 | partial | RwLock_Props.v | `C107_refuted`, `C107_lost_write_refuted`, `C107_partial` | none |
| C108 | partial | RwLock_Props.v | `C108_partial`, `C108_refuted` | none |
| C109 | partial | RwLock_Props.v | `C109_refuted`, `C109_partial` | none |
| C110 | proved | Kernel_Props.v | `C110_order`, `C110_routing` | none |
| C111 | proved | Kernel_Props.v | `C111_stream` | none |
| C112 | partial | Kernel_Props.v | `C112_refuted`, `C112_partial`, `C112_answered` | none |
| C113 | partial | Kernel_Props.v | `C113_refuted`, `C113_partial` | none |
| C114 | partial | Kernel_Props.v | `C114_refuted`, `C114_partial` | none |
| C115 | partial | Kernel_Props.v | `C115_refuted`, `C115_partial` | none |
| C116 | partial | Kernel_Props.v | `C116_refuted`, `C116_partial` | none |
| C117 | partial | Kernel_Props.v | `C117_refuted`, `C117_interrupted_refuted`, `C117_partial` | none |
| C118 | partial | Kernel_Props.v | `C118_refuted`, `C118_clean_refuted`, `C118_partial` | none |
| C119 | partial | Login_Props.v | `C119_refuted`, `C119_partial` | none |
| C120 | partial | Login_Props.v | `C120_refuted`, `C120_partial` | none |
| C121 | partial | Login_Props.v | `C121_refuted`, `C121_partial` | none |
| C122 | proved | Login_Props.v | `C122_login_entitled`, `C122_connected` | none |
| C123 | proved | Login_Props.v | `C123_at_most_one_login` | none |
| C124 | partial | Login_Props.v | `C124_refuted`, `C124_partial` | none |
| C125 | partial | Login_Props.v | `C125_refuted`, `C125_ticket_refuted`, `C125_partial`, `C125_at_most_one` | none |
| C126 | partial | Login_Props.v | `C126_refuted`, `C126_partial` | none |
| C127 | partial | Login_Props.v | `C127_refuted`, `C127_partial` | none |
| C128 | partial | Login_Props.v | `C128_refuted`, `C128_partial` | none |
| C129 | partial | Login_Props.v | `C129_refuted`, `C129_partial` | none |
| C130 | partial | Login_Props.v | `C130_refuted`, `C130_partial` | none |
| C131 | partial | Login_Props.v | `C131_refuted`, `C131_partial` | none |
| C132 | proved | Login_Props.v | `C132_only_under_session_key` | none |
| C133 | proved | Login_Props.v | `C133_login_completes`, `C133_refused` | none |
| C134 | partial | Login_Props.v | `C134_refuted`, `C134_partial` | none |
| C135 | partial | Login_Props.v | `C135_refuted`, `C135_partial` | none |
| C136 | partial | Login_Props.v | `C136_refuted`, `C136_partial` | none |
| C137 | proved | Login_Props.v | `C137_stays_listed` | none |
| C138 | partial | PeerClient_Props.v | `C138_refuted`, `C138_partial` | none |
| C139 | partial | PeerClient_Props.v | `C139_ignored_refuted`, `C139_accepted_refuted`, `C139_partial` | none |
| C140 | partial | PeerClient_Props.v | `C140_refuted`, `C140_partial` | none |
| C141 | proved | PeerClient_Props.v | `C141_kept` | none |
| C142 | partial | PeerClient_Props.v | `C142_refuted`, `C142_partial` | none |
| C143 | partial | PeerClient_Props.v | `C143_refuted`, `C143_partial` | none |
| C144 | partial | PeerClient_Props.v | `C144_refuted`, `C144_partial` | none |
| C145 | partial | PeerClient_Props.v | `C145_other_refuted`, `C145_unasked_refuted`, `C145_partial` | none |
| C146 | proved | PeerClient_Props.v | `C146_latest`, `C146_late` | none |
| C147 | partial | PeerClient_Props.v | `C147_refuted`, `C147_partial` | none |
| C148 | proved | PeerClient_Props.v | `C148_accepted` | none |
| C149 | proved | PeerClient_Props.v | `C149_crossed` | none |
| C150 | proved | PeerClient_Props.v | `C150_detected` | none |
| C151 | partial | PeerClient_Props.v | `C151_refuted`, `C151_partial` | none |
| C152 | proved | PeerClient_Props.v | `C152_fresh` | none |
| C153 | partial | PeerClient_Props.v | `C153_refuted`, `C153_partial` | none |
| C154 | partial | KeepAlive_Props.v | `C154_refuted`, `C154_partial`, `C154_traffic` | none |
| C155 | partial | KeepAlive_Props.v | `C155_refuted`, `C155_late_refuted`, `C155_ahead_refuted`, `C155_partial` | none |
| C156 | partial | KeepAlive_Props.v | `C156_refuted`, `C156_short_refuted`, `C156_partial` | none |
| C157 | proved | BiChannel_Props.v | `C157_in_order` | none |
| C158 | partial | BiChannel_Props.v | `C158_refuted`, `C158_partial` | none |
| C159 | partial | BiChannel_Props.v | `C159_refuted`, `C159_partial` | none |
| C160 | partial | BiChannel_Props.v | `C160_refuted`, `C160_partial`, `C160_read_partial` | none |
| C161 | proved | Callback_Props.v | `C161_own_answer` | none |
| C162 | proved | Callback_Props.v | `C162_answered_once`, `C162_no_response`, `C162_first` | none |
| C163 | partial | Callback_Props.v | `C163_refuted`, `C163_partial` | none |
| C164 | partial | Callback_Props.v | `C164_refuted`, `C164_partial`, `C164_bounded_partial` | none |
| C165 | partial | SyncStart_Props.v | `C165_refuted`, `C165_partial`, `C165_same_time_partial` | none |
| C166 | partial | SyncStart_Props.v | `C166_refuted`, `C166_partial`, `C166_not_before_partial` | none |
| C167 | partial | ReliableConn_Props.v | `C167_refuted`, `C167_bytes_partial`, `C167_lockstep_partial` | none |
| C168 | partial | ReliableConn_Props.v | `C168_refuted`, `C168_wrapper_partial`, `C168_first_part_partial` | none |
| C169 | partial | ReliableConn_Props.v | `C169_refuted`, `C169_first_partial` | none |
| C170 | partial | ReliableConn_Props.v | `C170_refuted`, `C170_partial`, `C170_after_partial` | none |
| C171 | proved | KvStore_Props.v | `C171_memory` | none |
| C172 | partial | KvStore_Props.v | `C172_refuted`, `C172_partial` | none |
| C173 | proved | KvStore_Props.v | `C173_memory`, `C173_sql` | none |
| C174 | partial | KvStore_Props.v | `C174_refuted`, `C174_partial` | none |
| C175 | partial | InternalService_Props.v | `C175_refuted`, `C175_refuted_for_good`, `C175_partial` | none |
| C176 | partial | InternalService_Props.v | `C176_refuted`, `C176_partial` | none |
| C177 | proved | InternalService_Props.v | `C177_own_data`, `C177_of_this_client`, `C177_taken`, `C177_drained` | none |
