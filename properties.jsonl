{"id": "C01", "title": "A packet ID is never accepted twice", "statement": "Between two resets, the anti-replay container never answers 'accept' more than once for the same packet ID, whatever IDs arrive and in whatever order, including IDs at the extremes of the 64-bit range.", "quantifier": "every finite sequence of 64-bit packet IDs fed to one receiver since its last reset", "why_tests_cant": "A replay is only useful to an attacker at an arrival order the author did not think of; the set of interleavings with window evictions is infinite.", "anchors": ["citadel_pqcrypto/src/replay_attack_container.rs: AntiReplayAttackContainer::on_pid_received, reset, get_next_pid"]}
{"id": "C02", "title": "Fresh in-window packets are accepted, stale ones refused", "statement": "A packet ID is accepted exactly when it has not been accepted before and it lies at most 1024 below one past the largest ID accepted so far; no other rejection or acceptance happens.", "quantifier": "every finite arrival history and every next ID", "why_tests_cant": "The off-by-one at the lower edge of the window, saturation at u64::MAX and bulk eviction after a large jump need every history to be checked.", "anchors": ["citadel_pqcrypto/src/replay_attack_container.rs: on_pid_received, HISTORY_LEN"]}
{"id": "C03", "title": "Replay tracking uses bounded memory", "statement": "After any arrival history the receiver keeps at most 1025 packet IDs, at most 1024 if the ID u64::MAX has never been accepted, and each kept ID is one that was accepted.", "quantifier": "every arrival history", "why_tests_cant": "A leak in eviction only shows after adversarial jumps; no finite test covers all of them.", "anchors": ["citadel_pqcrypto/src/replay_attack_container.rs: on_pid_received (floor eviction)"]}
{"id": "C04", "title": "An authenticated packet channel delivers each protected packet at most once and unmodified", "statement": "With an ideal AEAD, a receiver that validates any sequence of byte strings (honest packets, replays, reorderings, forgeries, truncations) returns a header/payload pair only if the sender protected exactly that pair, and it does so at most once per protect call; rejected packets never consume replay state.", "quantifier": "every interleaving of sends and arbitrary adversarial arrivals, every security level of the layered ratchet", "why_tests_cant": "The adversary's choices of packets and order are unbounded.", "anchors": ["citadel_pqcrypto/src/lib.rs: protect_packet_in_place, validate_packet_in_place", "citadel_crypt/src/ratchets/mod.rs: protect_message_packet, validate_message_packet"]}
{"id": "C05", "title": "Layered protect/validate is a round trip at every security level", "statement": "For every payload, header and security level, validating a freshly protected packet on the peer's matching ratchet returns exactly the payload and leaves the header as it was; levels above the ratchet's depth are an error on both sides, never a silent downgrade.", "quantifier": "all payloads, headers, levels 0..=255 and ratchet depths", "why_tests_cant": "Layer order mistakes (ascending vs. descending) show only for certain depth/level combinations.", "anchors": ["citadel_crypt/src/ratchets/mod.rs: protect_message_packet, validate_message_packet, verify_level, local_encrypt, local_decrypt", "citadel_pqcrypto/src/lib.rs: protect_packet_in_place, validate_packet_in_place"]}
{"id": "C06", "title": "Both ends of a session derive matching directional keys through every re-key", "statement": "After any number of chained key exchanges in which both ends see the same shared secrets and pre-shared keys, the initiator's encryption key equals the responder's decryption key and vice versa, and the chaining value agrees.", "quantifier": "all sequences of shared secrets, all pre-shared key lists, every version", "why_tests_cant": "The chain is recursive; agreement at version k depends on all previous versions.", "anchors": ["citadel_pqcrypto/src/lib.rs: generate_recursive_keystore, get_encryption_key, get_decryption_key"]}
{"id": "C07", "title": "Different pre-shared key lists do not silently match", "statement": "Two ends that configured different lists of session passwords never complete a key exchange, first or renewal (barring hash collisions on the values at hand): the initiator refuses the responder's answer, so a session is established only if the lists are equal.", "quantifier": "all pairs of password lists, all chaining states, every cipher suite", "why_tests_cant": "Quantifies over all pairs of lists of unbounded byte strings; depends on how entries are separated before hashing.", "anchors": ["citadel_pqcrypto/src/lib.rs: generate_recursive_keystore (PSK concatenation)", "citadel_types/src/crypto/mod.rs: PreSharedKey::add_password", "citadel_crypt/src/ratchets/stacked/ratchet.rs: new_bob, stage0_bob, stage1_alice"]}
{"id": "C08", "title": "Ordered delivery: output is always an initial segment of the sender's order", "statement": "Whatever order, duplication or loss the network applies to sequence-numbered messages, what the consumer has been handed is at every moment exactly messages 0..k-1 in order for some k, each once; and k is the largest value for which all of 0..k-1 have arrived.", "quantifier": "all arrival sequences (permutations, duplicates, losses) of one sender's numbered stream", "why_tests_cant": "Number of permutations is factorial and duplicates unbounded.", "anchors": ["citadel_crypt/src/ordered_channel.rs: OrderedChannel::on_packet_received, scan_send"]}
{"id": "C09", "title": "Ratchet look-up by version is exact over the whole life of a session", "statement": "In any history of ratchet updates and truncations, looking up version v gives the ratchet that was installed as version v if v lies between the oldest retained and the newest version, and nothing otherwise, including when the 32-bit version number wraps around.", "quantifier": "every history of accepted/rejected updates and truncations from any start version", "why_tests_cant": "Versions wrap after 2^32 re-keys and the window slides; indices are computed by modular subtraction.", "anchors": ["citadel_crypt/src/toolset.rs: update_from, append_session_crypto_state, deregister_oldest_ratchet, get_ratchet, get_oldest_ratchet, get_most_recent_ratchet"]}
{"id": "C10", "title": "Ratchet history is truncated only by agreement and only when full", "statement": "The oldest ratchet is discarded only on an explicit truncation naming exactly the oldest version while the history is at capacity; a rejected update or truncation changes nothing; if every 'needs synchronization' answer is followed by its truncation the history never exceeds capacity.", "quantifier": "every history of operations, including rejected ones", "why_tests_cant": "Requires an invariant over all histories.", "anchors": ["citadel_crypt/src/toolset.rs: ToolsetUpdateStatus, deregister_oldest_ratchet", "citadel_crypt/src/endpoint_crypto_container.rs: commit_next_ratchet_version, update_sync_safe"]}
{"id": "C11", "title": "Concurrent re-keys never leave the two ends on different keys", "statement": "For every interleaving of re-key triggers on both ends and in-order delivery of their messages, whenever a round completes on an end, the version it declares usable exists in the toolset of both ends, the two ends' declared versions differ by at most one, and when no message is in flight and nobody is mid-round they are equal.", "quantifier": "every schedule of triggers and deliveries between two ends", "why_tests_cant": "The simultaneous-rekey races are schedule dependent; exhaustive scheduling is infeasible for tests.", "anchors": ["citadel_crypt/src/ratchets/ratchet_manager.rs: trigger_rekey, rekey loop (AliceToBob, BobToAlice, Truncate, LoserCanFinish, LeaderCanFinish)", "citadel_crypt/src/endpoint_crypto_container.rs: update_sync_safe, post_alice_stage1_or_post_stage1_bob, get_next_constructor"]}
{"id": "C12", "title": "Scrambled packet coordinates decode back to the packet's position", "statement": "For every packet position whose wave number fits 32 bits, the (wave, source port, destination port) coordinates the sender prints decode on the receiver to the same position, and two different positions never get the same coordinates; no coordinates decode to a position nobody sent.", "quantifier": "all positions, all port permutations produced by the entropy bank generator", "why_tests_cant": "14!*14! permutations times unbounded positions.", "anchors": ["citadel_crypt/src/packet_vector.rs: generate_packet_vector, generate_packet_coordinates_inv", "citadel_crypt/src/misc.rs: create_port_mapping"]}
{"id": "C13", "title": "A scrambled group is reassembled exactly, whatever the packet order", "statement": "For every plaintext, splitting it into encrypted waves and packets and feeding the packets to the receiver in any order with any duplicates yields the original bytes exactly when the last missing packet arrives, never earlier and never different bytes.", "quantifier": "all plaintext lengths, all chunk-size parameters, all arrival orders with duplicates", "why_tests_cant": "Boundary lengths (exact multiples of wave/packet sizes) and all permutations.", "anchors": ["citadel_crypt/src/scramble/crypt_splitter.rs: generate_scrambler_metadata, par_scramble_encrypt_group, scramble_encrypt_wave, GroupReceiver::new, on_packet_received, get_insertion_range, finalize"]}
{"id": "C14", "title": "A sender's own group description is accepted by the receiver's sanity check", "statement": "For every plaintext length accepted by the sender, the group description it transmits passes the validation that the receiver runs before accepting the group.", "quantifier": "all plaintext lengths and cipher overheads", "why_tests_cant": "Fails only for lengths that are exact multiples of the wave size.", "anchors": ["citadel_crypt/src/scramble/crypt_splitter.rs: generate_scrambler_metadata, GroupReceiverConfig::validate", "citadel_proto/src/proto/validation.rs: group::validate_header"]}
{"id": "C15", "title": "A sender considers a group delivered only when every wave was acknowledged", "statement": "The sending side reports a group finished only after each of its waves has been acknowledged, regardless of duplicate or unknown acknowledgements.", "quantifier": "all acknowledgement sequences", "why_tests_cant": "Duplicate acknowledgements are schedule dependent.", "anchors": ["citadel_crypt/src/scramble/crypt_splitter.rs: GroupSenderDevice::on_wave_tail_ack_received"]}
{"id": "C16", "title": "In-place packet builder never overlaps or loses bytes", "statement": "Writing payload, header and payload extension to a secure packet in the documented order and extracting it yields exactly what was written, as long as header and payload together are below 4 GiB; any out-of-order call is an error which leaves the contents unchanged; a write to one partition never touches another.", "quantifier": "all sizes and all call sequences", "why_tests_cant": "Call sequences and sizes are unbounded.", "anchors": ["citadel_crypt/src/secure_buffer/sec_packet.rs: SecureMessagePacket", "citadel_crypt/src/secure_buffer/partitioned_sec_buffer.rs: PartitionedSecBuffer"]}
{"id": "C17", "title": "Packet header serialisation is lossless", "statement": "Serialising any header gives 64 bytes that parse back to the same header; parsing any buffer of at least 64 bytes followed by re-serialising gives back its first 64 bytes, and shorter buffers are refused.", "quantifier": "all header field values and all byte buffers", "why_tests_cant": "Field space is 2^512.", "anchors": ["citadel_proto/src/proto/packet.rs: HdpHeader, HdpPacket::parse, decompose"]}
{"id": "C18", "title": "Header obfuscation is undone by the peer and only once the key is known", "statement": "For every key and every packet sequence, the server's obfuscator recovers exactly the packets the client's obfuscator emitted after the client's first packet, and in the other direction; with obfuscation disabled packets pass unchanged.", "quantifier": "all 128-bit keys and all packet sequences", "why_tests_cant": "Stateful first-packet key exchange and 2^128 keys.", "anchors": ["citadel_proto/src/proto/packet.rs: HeaderObfuscator::on_packet_received, prepare_outbound, new_client, new_server, apply_cipher, cipher_inner"]}
{"id": "C19", "title": "Tree arithmetic of group key agreement is correct for every group size", "statement": "For every number of members n and every member slot, the direct path is exactly the set of ancestors of the slot in the left-balanced binary tree over n leaves listed bottom-up, the copath lists at the same position the other child of that ancestor, and the subtrees of the copath nodes partition all other slots.", "quantifier": "all n >= 1 and all slots i < n", "why_tests_cant": "Non-power-of-two right-edge corrections; unit tests only check a few hand-drawn trees.", "anchors": ["citadel_treekem/src/tree/math.rs: level, left, right, parent, sibling, direct_path, copath, root, node_width"]}
{"id": "C20", "title": "A path secret is sealed to exactly the members below a node", "statement": "In every tree reachable by adds, removes and re-keys, the resolution of a node is duplicate-free and each live member below it is reached by exactly one listed key that the member holds, while no key in the list is known to a removed member.", "quantifier": "all reachable ratchet trees and nodes", "why_tests_cant": "Reachable trees depend on unbounded histories of adds/removes/updates.", "anchors": ["citadel_treekem/src/tree/ratchet_tree.rs: resolution, add_leaf, add_leaf_at, remove_leaf", "citadel_treekem/src/path.rs: generate_update_path"]}
{"id": "C21", "title": "All members of a group derive the same key in every epoch", "statement": "In any history of create/add/remove/re-key commits, made by any current member and processed in order by all other members (joiners joining by their welcome), all members hold the same tree, epoch number, transcript and application secret after every commit, and no member fails to process a commit.", "quantifier": "all finite commit histories with arbitrary committers, any group size", "why_tests_cant": "Histories interleave blank slots, slot reuse, unmerged leaves and tree growth without bound.", "anchors": ["citadel_treekem/src/group.rs: GroupState::create, add_member, remove_member, commit_update, process_commit, join_from_welcome", "citadel_treekem/src/path.rs"]}
{"id": "C22", "title": "A removed member cannot read later epochs", "statement": "From everything a removed member ever held and everything later broadcast, the secrets of the epochs after the removal cannot be derived (symbolic cryptography), as long as the member is not added back and no current member leaks a key.", "quantifier": "all histories after the removal", "why_tests_cant": "It is a statement about everything an attacker could compute.", "anchors": ["citadel_treekem/src/group.rs: remove_member", "citadel_treekem/src/path.rs: generate_update_path", "citadel_treekem/src/tree/ratchet_tree.rs: remove_leaf"]}
{"id": "C23", "title": "A group commit is applied at most once and only in order", "statement": "Through the session layer a member applies a commit only when its epoch number is the successor of the member's current epoch; duplicated, stale or skipped-ahead commits leave the member's state unchanged, so under any delivery of the owner's commits the member's state is always that of some prefix of the owner's history.", "quantifier": "all delivery schedules of commits (duplicates, loss, reordering)", "why_tests_cant": "Delivery schedules are unbounded.", "anchors": ["citadel_proto/src/proto/peer/group_cgka/mod.rs: GroupCgka::process_commit, join, add_member, remove_member"]}
{"id": "C24", "title": "Group message keys are used for one message only", "statement": "Within an epoch, two different messages encrypted by group members never use the same key and nonce, and a member opens a message only with the key of the message's epoch.", "quantifier": "all message sequences per epoch", "why_tests_cant": "The generation counter is 32 bits and wraps.", "anchors": ["citadel_treekem/src/group.rs: encrypt_message, decrypt_message", "citadel_treekem/src/application.rs: seal, open, key_nonce"]}
{"id": "C25", "title": "Command hierarchy: superiors can read, others cannot", "statement": "A message sealed to a unit can be opened by every superior on its command path and by the addressed member, and yields exactly the sealed bytes; a holder whose path is not an ancestor cannot derive the unit's secret.", "quantifier": "all command paths and messages", "why_tests_cant": "Paths are unbounded strings of segments.", "anchors": ["citadel_treekem/src/hierarchy.rs: derive_descendant_secret, DheEnvelope", "citadel_treekem/src/hierarchy_member.rs: HierarchyMember::seal_message, open_message", "citadel_types/src/proto/mod.rs: CommandPath::is_ancestor_of"]}
{"id": "C26", "title": "Command path ancestry is a partial order compatible with parsing", "statement": "Ancestry of command paths is reflexive, antisymmetric and transitive, the root is above everything, a child is strictly below its parent, the ancestors of a path are totally ordered, and printing a parsed path and parsing again changes nothing.", "quantifier": "all strings", "why_tests_cant": "Unbounded strings with empty segments and repeated separators.", "anchors": ["citadel_types/src/proto/mod.rs: CommandPath::parse, child, is_ancestor_of"]}
{"id": "C27", "title": "At most one disconnect notification per connection life", "statement": "Between two clears of a session (or of one peer connection), the caller is told to emit a disconnect signal at most once for the session and at most once per peer, and the first attempt is always granted; different sessions do not interfere.", "quantifier": "all interleavings of attempts and clears by concurrent callers", "why_tests_cant": "Concurrent schedules.", "anchors": ["citadel_proto/src/proto/disconnect_tracker.rs: try_c2s_disconnect, try_p2p_disconnect, clear_p2p_peer, clear_session"]}
{"id": "C28", "title": "Only the group owner decides who joins a private group", "statement": "A peer becomes a member of a private message group only if the group's owner invited the peer or accepted its request.", "quantifier": "all sequences of signals from arbitrary sessions", "why_tests_cant": "Attack sequences are not covered by cooperative tests.", "anchors": ["citadel_proto/src/proto/packet_processor/peer/group_broadcast.rs: process_group_broadcast (RequestJoin, AcceptMembership, Add)", "citadel_proto/src/proto/peer/peer_layer.rs: upgrade_peer_in_group, request_join"]}
{"id": "C29", "title": "Group broadcast reaches exactly the current members", "statement": "A group message is delivered (or mailed) to each current member other than the sender exactly once, and to nobody else; a peer removed from the group gets no later broadcast until it is a member again.", "quantifier": "all histories of membership changes", "why_tests_cant": "Histories are unbounded.", "anchors": ["citadel_proto/src/proto/session_manager.rs: broadcast_signal_to_group, send_group_broadcast_signal_to, kick_from_message_group", "citadel_proto/src/proto/peer/peer_layer.rs: remove_peers_from_message_group, get_peers_in_message_group"]}
{"id": "C30", "title": "Only the owner can end a group or remove other members", "statement": "A group other than one's own is never deleted and another peer's membership never removed as the effect of a non-owner's signal; a non-owner can only remove itself.", "quantifier": "all signal sequences from arbitrary sessions", "why_tests_cant": "Authorisation must hold for every message from every state.", "anchors": ["citadel_proto/src/proto/packet_processor/peer/group_broadcast.rs: End, Kick, LeaveRoom, permission_gate", "citadel_proto/src/proto/peer/peer_layer.rs: remove_message_group, remove_peers_from_message_group"]}
{"id": "C31", "title": "Peer requests are answered or time out, never both", "statement": "Every tracked peer request is consumed at most once: either by a matching response or by its timeout, and the timeout does not fire before the request's own deadline.", "quantifier": "all schedules of inserts, responses, expirations, including re-used tickets", "why_tests_cant": "Timer/response races.", "anchors": ["citadel_proto/src/proto/peer/peer_layer.rs: insert_tracked_posting, remove_tracked_posting_inner, poll_purge"]}
{"id": "C32", "title": "One live connection attempt per account", "statement": "While a connection attempt for an account holds the server's clearance, no second attempt for the same account is cleared, unless the first was released, committed and later disconnected, or its 30 s reservation lapsed.", "quantifier": "all interleavings of attempts from different sockets", "why_tests_cant": "Race windows.", "anchors": ["citadel_proto/src/proto/session_manager.rs: can_proceed_with_new_incoming_connection, release_provisional_cid_reservation, upgrade_connection, clear_session"]}
{"id": "C33", "title": "Tearing down an old session never removes its replacement", "statement": "When a stale session of an account finishes, the newer session registered under the same account stays registered.", "quantifier": "all orders of connect, reconnect and teardown events", "why_tests_cant": "Reconnect races.", "anchors": ["citadel_proto/src/proto/session_manager.rs: clear_session, clear_provisional_session, upgrade_connection"]}
{"id": "C34", "title": "Logging in to a password account requires the password", "statement": "For an account registered with a password, a connect request is accepted only if it carries the account's user name and a password whose hash matches.", "quantifier": "all credentials presented", "why_tests_cant": "Requires considering every credential variant, not the ones the client code builds.", "anchors": ["citadel_user/src/auth/proposed_credentials.rs: validate_credentials", "citadel_user/src/client_account.rs: validate_credentials"]}
{"id": "C35", "title": "The password used at registration logs the user in", "statement": "If registering with a given raw password succeeds, connecting with the same user name and the same raw password is accepted.", "quantifier": "all passwords", "why_tests_cant": "Only passwords with surrounding white space distinguish the two paths.", "anchors": ["citadel_user/src/auth/proposed_credentials.rs: new_register, new_connect, sanitize_and_prepare", "citadel_user/src/client_account.rs: generate_connect_credentials"]}
{"id": "C36", "title": "User names and account IDs are unique", "statement": "Two successful registrations on one server never share a user name or an account ID; a failed registration does not change the account database.", "quantifier": "all sequences of registrations, deletions and look-ups", "why_tests_cant": "Histories are unbounded.", "anchors": ["citadel_user/src/account_manager.rs: register_impersonal_hyperlan_client_network_account", "citadel_user/src/backend/memory.rs: save_cnac, username_exists"]}
{"id": "C37", "title": "Peer registration is symmetric and deregistration removes it on both sides", "statement": "After any history of server-side peer (de)registrations and account deletions, A lists B exactly when B lists A, deregistering makes the two no longer mutual, and no listed peer is a deleted account.", "quantifier": "all operation histories", "why_tests_cant": "Duplicate registration and deletion orders are unbounded.", "anchors": ["citadel_user/src/backend/memory.rs: register_p2p_as_server, deregister_p2p_as_server, delete_cnac_by_cid", "citadel_user/src/client_account.rs: register_hyperlan_p2p_as_server, deregister_hyperlan_p2p_as_server, remove_hyperlan_peer"]}
{"id": "C38", "title": "Per-account key/value storage behaves as a map", "statement": "Reading a key returns the value last stored under the same (account, peer, key, sub-key) and not removed since; operations on one address never affect another address; bulk read/remove return exactly the live sub-keys.", "quantifier": "all operation histories", "why_tests_cant": "Histories are unbounded.", "anchors": ["citadel_user/src/backend/memory.rs: get_byte_map_value, store_byte_map_value, remove_byte_map_value, get_byte_map_values_by_key, remove_byte_map_values_by_key"]}
{"id": "C39", "title": "Offline mail is delivered exactly once", "statement": "Every signal deposited for an offline account is returned by that account's next connect registration and never again, and mail is never handed to another account.", "quantifier": "all interleavings of deposits and connects", "why_tests_cant": "Interleavings are unbounded.", "anchors": ["citadel_proto/src/proto/peer/peer_layer.rs: try_add_mailbox, register_peer, on_session_shutdown"]}
{"id": "C40", "title": "Network mutex: mutual exclusion", "statement": "At no time do both ends of a network mutex hold a guard, for every schedule of lock requests, guard drops and message deliveries on a reliable ordered link.", "quantifier": "all schedules of two nodes", "why_tests_cant": "Distributed schedules, including simultaneous requests with equal clocks.", "anchors": ["netbeam/src/sync/primitives/net_mutex.rs: NetMutexGuardDropCode, NetMutexGuardAcquirer, yield_lock, passive_background_handler"]}
{"id": "C41", "title": "Network mutex: progress", "statement": "If both ends keep processing messages and every guard is eventually dropped, every lock request is eventually granted (no reachable state in which a request is pending and nothing can move).", "quantifier": "all schedules of two nodes", "why_tests_cant": "Deadlocks depend on rare schedules.", "anchors": ["netbeam/src/sync/primitives/net_mutex.rs"]}
{"id": "C42", "title": "Network mutex: the next holder sees the last written value", "statement": "Whenever a guard is granted, the value it exposes is the value written by the previous holder (or the initial value).", "quantifier": "all schedules of two nodes", "why_tests_cant": "Distributed schedules.", "anchors": ["netbeam/src/sync/primitives/net_mutex.rs: yield_lock, NetMutexGuardAcquirer"]}
{"id": "C43", "title": "Crypto parameters survive the wire byte", "statement": "Every valid combination of encryption, KEM and signature algorithm packs to one byte which unpacks to the same combination; every byte either unpacks to a valid combination that packs to the same byte, or is refused.", "quantifier": "all parameter combinations and all 256 bytes", "why_tests_cant": "Finite but not covered by the tests; needs agreement of pack, unpack and validation.", "anchors": ["citadel_types/src/crypto/mod.rs: CryptoParameters, TryFrom<u8>", "citadel_types/src/utils/mod.rs: validate_crypto_params"]}
{"id": "C44", "title": "Security level numbering is faithful", "statement": "A security level converted to its number and back denotes the same number of layers, and the order of levels agrees with the order of numbers.", "quantifier": "all 256 levels", "why_tests_cant": "Finite, stated for all values.", "anchors": ["citadel_types/src/crypto/mod.rs: SecurityLevel::value, for_value, from"]}
{"id": "C45", "title": "Constant-time comparison decides equality", "statement": "The comparison routine returns true exactly for equal byte strings, whatever their lengths, and inspects the same number of positions for all inputs of the same length.", "quantifier": "all pairs of byte strings", "why_tests_cant": "Unbounded inputs.", "anchors": ["citadel_types/src/utils/mod.rs: const_time_compare"]}
{"id": "C46", "title": "Session timers fire for the event they were registered for", "statement": "Every timed event registered for a session fires its own callback when due; registering one event never silences, replaces or crashes another.", "quantifier": "all sequences of registrations, expirations and removals", "why_tests_cant": "Key collisions need particular index combinations.", "anchors": ["citadel_proto/src/proto/session_queue_handler.rs: insert_ordinary, insert_reserved, insert_oneshot, poll_purge"]}
{"id": "C47", "title": "Nonces are not repeated under one key", "statement": "All nonces an entropy bank hands out for one key until its 64-bit counter has gone round are pairwise different.", "quantifier": "all call sequences", "why_tests_cant": "The counter space is 2^64.", "anchors": ["citadel_crypt/src/ratchets/entropy_bank.rs: get_nonce, wrap_with_unique_nonce, TransientNonceCounter"]}
{"id": "C48", "title": "Credential rules are exactly the documented ones", "statement": "A registration is accepted by the credential checker exactly when the user name has between 3 and 37 characters and no space, the password (if any) between 7 and 17 and no space, and the full name between 2 and 77.", "quantifier": "all strings", "why_tests_cant": "Boundary conditions on unbounded inputs.", "anchors": ["citadel_user/src/credentials.rs: CredentialRequirements::check"]}
{"id": "C49", "title": "Handshake packets are accepted once, also across reconnects", "statement": "A packet protected with the account's static auxiliary ratchet (used to authenticate the connection handshake) is accepted at most once over the life of the account, even when sessions are torn down and re-established.", "quantifier": "all sequences of sessions, packets and adversary replays", "why_tests_cant": "Needs a recorded packet replayed into a later session; the replay memory is per process state.", "anchors": ["citadel_proto/src/proto/validation.rs: validate_syn", "citadel_crypt/src/toolset.rs: verify_init_state, get_static_auxiliary_ratchet", "citadel_crypt/src/ratchets/mod.rs: reset_ara", "citadel_user/src/client_account.rs: refresh_static_ratchet"]}
{"id": "C50", "title": "A validated transfer description cannot crash the receiver", "statement": "Once a received group description has passed GroupReceiverConfig::validate, no packet the peer sends for that group makes the receiver panic: each packet is stored, refused or reported corrupt.", "quantifier": "all descriptions that pass validation, all packet sequences, all payloads", "why_tests_cant": "The panic needs a consistent description that no honest sender produces.", "anchors": ["citadel_crypt/src/scramble/crypt_splitter.rs: GroupReceiverConfig::validate, GroupReceiver::on_packet_received, get_insertion_range, check_bounds", "citadel_proto/src/proto/state_container/inbound_transfer.rs: on_group_payload_received"]}
{"id": "C51", "title": "A transfer description bounds the receiver's memory", "statement": "A group description that passes validation makes the receiver allocate at most 40 MiB of buffers for that group.", "quantifier": "all descriptions a peer can send", "why_tests_cant": "All products of 32- and 64-bit fields chosen by the peer.", "anchors": ["citadel_crypt/src/scramble/crypt_splitter.rs: GroupReceiverConfig::validate, GroupReceiver::new"]}
{"id": "C52", "title": "A relay cannot alter a transferred group undetected", "statement": "When the receiver reports a group complete, the bytes it hands over are the bytes the sender put in, whatever a relay between them does to the packets.", "quantifier": "all transfers, all relays that cannot decrypt", "why_tests_cant": "Needs an adversary between the peers, acting on packet coordinates.", "anchors": ["citadel_crypt/src/scramble/crypt_splitter.rs: scramble_encrypt_wave, on_packet_received", "citadel_proto/src/proto/packet_processor/primary_group_packet.rs: GROUP_PAYLOAD", "citadel_proto/src/proto/state_container/inbound_transfer.rs: on_group_payload_received"]}
{"id": "C53", "title": "A key exchange proceeds only on validly signed messages when signatures are configured", "statement": "When both ends are configured with a signature scheme, neither end completes a key exchange on a public key or ciphertext that does not carry a valid signature of it.", "quantifier": "all key exchanges, all received messages, all signature schemes", "why_tests_cant": "The message must come from an adversary; tests only exchange honest messages.", "anchors": ["citadel_pqcrypto/src/lib.rs: PostQuantumMeta::new_bob, alice_on_receive_ciphertext", "citadel_crypt/src/ratchets/stacked/ratchet.rs: new_bob, stage1_alice"]}
{"id": "C54", "title": "A server without password-less accounts never holds one", "statement": "If the server's settings do not allow password-less (transient) accounts, then after any sequence of registrations, deletions, peer registrations and storage operations every client account is protected by a password hash.", "quantifier": "all sequences of account operations, all credentials", "why_tests_cant": "Quantifies over all histories and all credential variants a client can send.", "anchors": ["citadel_user/src/auth/proposed_credentials.rs: derive_server_container", "citadel_user/src/account_manager.rs: register_impersonal_hyperlan_client_network_account"]}
{"id": "C55", "title": "Only the owner changes a member's group state", "statement": "A member's group key state advances only by commits that the group's owner made.", "quantifier": "all groups, all commits a member can receive", "why_tests_cant": "Needs a well-formed commit made by somebody other than the owner.", "anchors": ["citadel_proto/src/proto/peer/group_cgka/mod.rs: GroupCgkaState::process_commit", "citadel_proto/src/proto/packet_processor/peer/group_broadcast.rs: GroupBroadcast::Commit"]}
{"id": "C56", "title": "A rejected commit is harmless", "statement": "When a member rejects a commit with an error, the owner's next commit is applied as if the rejected one had never been received.", "quantifier": "all groups, all commits", "why_tests_cant": "The bad commit must be crafted; the damage shows only in a later, unrelated commit.", "anchors": ["citadel_treekem/src/group.rs: GroupState::process_commit", "citadel_treekem/src/path.rs: apply_update_path", "citadel_proto/src/proto/peer/group_cgka/mod.rs: GroupCgkaState::process_commit"]}
{"id": "C57", "title": "Processing a commit always terminates", "statement": "Processing any deserializable commit ends with success or an error; it neither panics nor loops.", "quantifier": "all groups, all commits", "why_tests_cant": "All 32-bit leaf numbers and all tree sizes.", "anchors": ["citadel_treekem/src/tree/math.rs: parent, direct_path", "citadel_treekem/src/path.rs: apply_update_path", "citadel_treekem/src/group.rs: GroupState::process_commit"]}
{"id": "C58", "title": "A failed add leaves the group usable", "statement": "If adding an account to a group fails, the owner can still add other accounts and re-key the group.", "quantifier": "all groups, all key packages", "why_tests_cant": "The key package must be crafted by a joining client; the effect shows in later operations.", "anchors": ["citadel_treekem/src/group.rs: GroupState::add_member", "citadel_proto/src/proto/peer/group_cgka/mod.rs: GroupCgkaState::add_member", "citadel_proto/src/proto/packet_processor/peer/group_broadcast.rs: cgka_owner_add_member"]}
{"id": "C59", "title": "A removed superior cannot read on", "statement": "A member that has been removed from a command-hierarchy group cannot read any message sent after its removal.", "quantifier": "all group histories, all positions of the removed member", "why_tests_cant": "Needs a removed member that keeps its secrets and sees the later traffic.", "anchors": ["citadel_proto/src/proto/peer/group_cgka/mod.rs: remove_member_by_cid", "citadel_proto/src/proto/peer/group_cgka/hierarchy.rs: demote", "citadel_treekem/src/hierarchy.rs: DheEnvelope::open_as_superior"]}
{"id": "C60", "title": "Only the owner assigns command positions", "statement": "A member takes up a command position only if the group's owner assigned it; the relay cannot cause a member to encrypt to a key the relay knows.", "quantifier": "all groups, all sealed assignments a member can receive", "why_tests_cant": "Needs an adversarial relay or member that seals its own assignment.", "anchors": ["citadel_proto/src/proto/peer/group_cgka/hierarchy.rs: apply_hierarchy_assignment", "citadel_proto/src/proto/packet_processor/peer/group_broadcast.rs: GroupBroadcast::HierarchyAssign", "citadel_treekem/src/hierarchy_member.rs: HierarchyMember::open"]}
{"id": "C61", "title": "Group messages come from members, under their own name", "statement": "Whenever a group message is delivered to a peer as coming from an account, that account sent it and was a member of the group at that moment.", "quantifier": "all signal sequences from arbitrary sessions", "why_tests_cant": "The offending client must skip the checks of the client library; every state of the group table matters.", "anchors": ["citadel_proto/src/proto/packet_processor/peer/group_broadcast.rs: GroupBroadcast::Message", "citadel_proto/src/proto/session_manager.rs: broadcast_signal_to_group"]}
{"id": "C62", "title": "Only peers registered with the owner are invited or join", "statement": "Invitations to a group go only to peers mutually registered with its owner, and only such peers become members, also of a public group.", "quantifier": "all registrations, all signal sequences", "why_tests_cant": "Registration, group creation and joining are separate operations that have to be combined.", "anchors": ["citadel_proto/src/proto/session_manager.rs: create_message_group_and_notify", "citadel_proto/src/proto/packet_processor/peer/group_broadcast.rs: Create, Add, RequestJoin", "citadel_proto/src/proto/peer/peer_layer.rs: request_join"]}
{"id": "C63", "title": "A pending invitation is turned down only by the owner or the invitee", "statement": "After the owner invited a peer, the peer can accept until it declines itself or the owner withdraws the invitation, whatever other sessions send.", "quantifier": "all signal sequences from arbitrary sessions", "why_tests_cant": "Needs a third party's well-formed decline at the right moment.", "anchors": ["citadel_proto/src/proto/packet_processor/peer/group_broadcast.rs: GroupBroadcast::DeclineMembership", "citadel_proto/src/proto/peer/peer_layer.rs: remove_pending_peer_from_group"]}
{"id": "C64", "title": "A re-key that timed out does not leave the ends with different keys", "statement": "Whatever rounds timed out before: when both ends are idle, nothing is in flight and both use the same version, they hold the same key for it, so what one encrypts the other decrypts.", "quantifier": "all interleavings of triggers, in-order deliveries and round timeouts", "why_tests_cant": "Needs particular delays around the 60-second timeout on both ends at once.", "anchors": ["citadel_crypt/src/ratchets/ratchet_manager.rs: rekey, trigger_rekey_with_payload", "citadel_crypt/src/endpoint_crypto_container.rs: update_sync_safe"]}
{"id": "C65", "title": "Every re-key round comes to an end", "statement": "Without any message being lost, every started re-key round can be brought to its end by delivering the messages in flight, without waiting for the 60-second recovery timeouts; a round that is left alone moves both ends to the next version.", "quantifier": "all interleavings of triggers at both ends and in-order deliveries", "why_tests_cant": "The losing interleaving needs a round of the peer to complete between two reads of a trigger.", "anchors": ["citadel_crypt/src/ratchets/ratchet_manager.rs: trigger_rekey_with_payload, rekey", "citadel_crypt/src/sync_toggle.rs: SyncToggle"]}
{"id": "C66", "title": "Network mutex: abandoning a lock request is safe", "statement": "Dropping the future of a pending lock() (a timeout, a select) never lets both ends hold a guard at once afterwards.", "quantifier": "all schedules of lock requests, cancellations, guard drops and deliveries on a reliable ordered link", "why_tests_cant": "Needs a stale request and a stale answer crossing a new one.", "anchors": ["netbeam/src/sync/primitives/net_mutex.rs: NetMutex::lock, yield_lock, passive_background_handler, Drop for LocalLockHolder"]}
{"id": "C67", "title": "Network mutex: dropping the mutex is safe", "statement": "Dropping one end of the mutex while a guard taken from it is still held never lets the other end obtain a guard before that guard is dropped.", "quantifier": "all schedules of lock requests, guard drops, mutex drops and deliveries on a reliable ordered link", "why_tests_cant": "The guard must outlive its mutex while the other end waits for the lock.", "anchors": ["netbeam/src/sync/primitives/net_mutex.rs: Drop for NetMutex, yield_lock"]}
{"id": "C68", "title": "Only the two peers can dissolve their registration", "statement": "The server ends the registration of two accounts with each other only on a request that came in on the session of one of the two.", "quantifier": "all runs of the server: any number of accounts, any requests of any clients, connections, disconnections and timeouts", "why_tests_cant": "A test client only ever names itself in a signal; the claim is about what a client may put there.", "anchors": ["citadel_proto/src/proto/packet_processor/peer/peer_cmd_packet.rs: process_signal_command_as_server (Deregister)", "citadel_user/src/client_account.rs: deregister_hyperlan_p2p_as_server"]}
{"id": "C69", "title": "A client learns only its own list of peers", "statement": "The list of registered peers the server sends to a session contains exactly the peers of the account of that session.", "quantifier": "all runs of the server and all requests", "why_tests_cant": "Requests for the list of another account never occur in tests.", "anchors": ["citadel_proto/src/proto/packet_processor/peer/peer_cmd_packet.rs: process_signal_command_as_server (GetMutuals)"]}
{"id": "C70", "title": "Accounts are registered with each other only if both want it", "statement": "Two accounts are registered with each other only if each of them asked for it or accepted it.", "quantifier": "all runs of the server with clients that name themselves; separately, clients that do not", "why_tests_cant": "Needs answers under tickets of other requests, crossing requests and clients that misuse the signals.", "anchors": ["citadel_proto/src/proto/packet_processor/peer/peer_cmd_packet.rs: process_signal_command_as_server (PostRegister)", "citadel_proto/src/proto/packet_processor/peer/server/post_register.rs: handle_response_phase_post_register", "citadel_proto/src/proto/session_manager.rs: route_signal_response_primary"]}
{"id": "C71", "title": "What an account sends to a peer goes to that peer", "statement": "A packet that a client addresses to a peer is passed by the server to the session of that peer and to no other session.", "quantifier": "all runs of the server, all requests of all clients", "why_tests_cant": "Needs a third client that answers a pending request under the name of another.", "anchors": ["citadel_proto/src/proto/packet_processor/peer/server/post_connect.rs: handle_response_phase_post_connect", "citadel_proto/src/proto/packet_processor/raw_primary_packet.rs: check_proxy", "citadel_proto/src/proto/peer/peer_layer.rs: check_simultaneous_connect"]}
{"id": "C72", "title": "A declined connection leaves no channel", "statement": "The server passes packets from one account to a peer only if each of the two asked for the connection or accepted it.", "quantifier": "all runs of the server, all requests", "why_tests_cant": "A test of declining looks at the answer the caller gets, not at what the server lets through afterwards.", "anchors": ["citadel_proto/src/proto/packet_processor/peer/server/post_connect.rs: handle_response_phase_post_connect"]}
{"id": "C73", "title": "Nothing is passed on after a disconnection", "statement": "After a peer connection was closed by one of the two and both have been told, the server passes no more packets between them until they connect again; nor after one of their sessions has ended.", "quantifier": "all runs of the server, all requests", "why_tests_cant": "Packets sent after the disconnection are discarded by a well-behaved receiver, so the tests do not see them.", "anchors": ["citadel_proto/src/proto/packet_processor/peer/peer_cmd_packet.rs: process_signal_command_as_server (Disconnect)", "citadel_proto/src/proto/session_manager.rs: disconnect_virtual_conn", "citadel_proto/src/proto/packet_processor/raw_primary_packet.rs: check_proxy"]}
{"id": "C74", "title": "A deregistration reported as done is done", "statement": "If the server reports to a client that a peer is deregistered, the two accounts are no longer registered with each other.", "quantifier": "all runs of the server, all requests", "why_tests_cant": "Needs the two to deregister, register again and deregister from the other side within an hour.", "anchors": ["citadel_proto/src/proto/packet_processor/peer/peer_cmd_packet.rs: process_signal_command_as_server (Deregister)", "citadel_proto/src/proto/peer/peer_layer.rs: check_simultaneous_deregister, insert_tracked_posting"]}
{"id": "C75", "title": "No request blocks the server", "statement": "No peer signal of a client makes the server panic or wait for a lock that the same task holds.", "quantifier": "all runs of the server, all requests, all tickets", "why_tests_cant": "Needs a client that answers its own request, which the client library never does.", "anchors": ["citadel_proto/src/proto/packet_processor/peer/server/post_connect.rs: handle_response_phase_post_connect", "citadel_proto/src/proto/packet_processor/peer/server/post_register.rs: handle_response_phase_post_register", "citadel_proto/src/proto/peer/peer_layer.rs"]}
{"id": "C76", "title": "A disconnection clears the pending connects of the pair", "statement": "After the server has handled the disconnection of two accounts, no request to connect one to the other is pending in either direction; every other pending request is untouched.", "quantifier": "all runs of the server, whoever asks for the disconnection, any number of pending requests of any kind and ticket", "why_tests_cant": "What is left over shows only in a later simultaneous reconnect; and the other requests that must survive are arbitrary.", "anchors": ["citadel_proto/src/proto/peer/peer_layer.rs: remove_pending_post_connect_between", "citadel_proto/src/proto/packet_processor/peer/peer_cmd_packet.rs: process_signal_command_as_server (Disconnect)"]}
{"id": "C77", "title": "A request to a peer reaches it exactly once or is refused", "statement": "A request to register with or to connect to an existing account is delivered to its session or to its mailbox exactly once and kept by the server, or else answers a pending request of that account, which is then consumed; a request to oneself or to an unknown account is refused with an error and changes nothing.", "quantifier": "all runs of the server, all connected clients, targets and tickets", "why_tests_cant": "The two paths (first request, simultaneous request) depend on everything pending at that moment.", "anchors": ["citadel_proto/src/proto/session_manager.rs: route_signal_primary, route_signal_response_primary", "citadel_proto/src/proto/packet_processor/peer/peer_cmd_packet.rs: process_signal_command_as_server (PostRegister, PostConnect)"]}
{"id": "C78", "title": "Simultaneous requests are matched", "statement": "If two accounts each ask the other to register (to connect), the server matches the second request with the first: they are registered with each other (joined by a channel in each direction), and the first is told under the ticket of its own request.", "quantifier": "all runs of the server, all other requests pending", "why_tests_cant": "The race of the two requests has many orders, and other requests of the same accounts are pending meanwhile.", "anchors": ["citadel_proto/src/proto/peer/peer_layer.rs: check_simultaneous_register, check_simultaneous_connect", "citadel_proto/src/proto/packet_processor/peer/peer_cmd_packet.rs: process_signal_command_as_server (PostRegister, PostConnect)"]}
{"id": "C79", "title": "A connected account stays known to the server's peer layer", "statement": "From the moment its session is connected until that session ends, an account is known to the server's peer layer: it can create message groups, receive requests of other accounts and keep mail.", "quantifier": "all orders of connects, reconnects, teardowns and of the clean-up tasks they spawn", "why_tests_cant": "The clean-up after an old session is a separate task whose timing against the new session no test controls.", "anchors": ["citadel_proto/src/proto/session_manager.rs: execute_session_with_safe_shutdown, register_session_with_peer_layer", "citadel_proto/src/proto/peer/peer_layer.rs: on_session_shutdown, register_peer"]}
{"id": "C80", "title": "The messages of a channel arrive in order, each at most once", "statement": "What comes out of a channel is an initial part of the messages for which send was called on the other end, in that order, without repetition; and what the reader has got is an initial part of that.", "quantifier": "both secrecy modes, connections to the server and to a peer, every interleaving of sends, failed or cancelled sends, re-keys, queue handling, file transfers, closing of halves, and every order of arrival of the packets", "why_tests_cant": "Messages take three ways out of an end (with a re-key, on their own, from the queue) and pass two re-ordering stages; their interleavings are unbounded.", "anchors": ["citadel_crypt/src/messaging.rs: send, background task", "citadel_crypt/src/ordered_channel.rs", "citadel_proto/src/proto/session.rs: send_ratchet_message", "citadel_proto/src/proto/state_container/channels.rs"]}
{"id": "C81", "title": "Nothing sent on a channel is lost", "statement": "Once nothing is under way any more, every message whose send returned Ok has come out at the other end.", "quantifier": "as for the order of messages; separately, runs without failures, cancelled sends and peer file transfers", "why_tests_cant": "The losses need a file transfer on the same peer connection, a failed re-key or a race of the queue with its notifications, followed by further messages.", "anchors": ["citadel_crypt/src/messaging.rs: send, background task", "citadel_crypt/src/ratchets/ratchet_manager.rs: trigger_rekey_with_payload", "citadel_proto/src/proto/session.rs: process_outbound_file (peer branch), send_ratchet_message"]}
{"id": "C82", "title": "A message is protected at the security level asked for", "statement": "A message sent on a channel after set_security_level is protected at that level.", "quantifier": "all runs of a channel, all levels", "why_tests_cant": "Any level can be decrypted by the receiver, so nothing a test observes depends on it.", "anchors": ["citadel_proto/src/proto/session.rs: send_ratchet_message", "citadel_proto/src/proto/peer/channel.rs: set_security_level"]}
{"id": "C83", "title": "Perfect secrecy: every message under a key of its own", "statement": "In SecrecyMode::Perfect no two messages of an end are protected by the same version of the keys.", "quantifier": "all interleavings of triggers at both ends and in-order deliveries; all sizes of the key store from three", "why_tests_cant": "The version is fixed when the packet is made, after the checks of the trigger; a re-key of the other end has to complete in between.", "anchors": ["citadel_crypt/src/ratchets/ratchet_manager.rs: trigger_rekey_with_payload", "citadel_crypt/src/messaging.rs: send", "citadel_proto/src/proto/session.rs: send_ratchet_message"]}
{"id": "C84", "title": "What has arrived can be read", "statement": "A reader that keeps polling the receiving half of a channel gets every message that has come out of the channel.", "quantifier": "all runs of a channel; any number of unread messages", "why_tests_cant": "The halves are usually dropped together; the loss needs unread messages when one of them goes first.", "anchors": ["citadel_crypt/src/messaging.rs: poll_next, Drop", "citadel_proto/src/proto/peer/channel.rs: PeerChannelRecvHalf"]}
{"id": "C85", "title": "An old command position stays replaced", "statement": "Once the owner has given a member a new command position or secret, delivering an earlier assignment to that member again has no effect; in particular a demoted superior does not regain access to what its former subordinates send.", "quantifier": "all group histories, all members, all earlier assignments", "why_tests_cant": "Needs a relay that stores an assignment and delivers it again after a demotion.", "anchors": ["citadel_proto/src/proto/peer/group_cgka/hierarchy.rs: apply_hierarchy_assignment, demote", "citadel_proto/src/proto/packet_processor/peer/group_broadcast.rs: GroupBroadcast::HierarchyAssign"]}
{"id": "C86", "title": "A file reported as received is the file that was sent", "statement": "When the receiver of a file transfer sees ObjectTransferStatus::ReceptionComplete, what has been written is byte for byte the file the sender sent.", "quantifier": "all files, all sizes of a group, all ways to cut a group into waves and orders of completing them, all interleavings, every transfer of a session", "why_tests_cant": "Tests send one file per session; the error needs an earlier transfer that moved the counter of group numbers and a later file of several groups.", "anchors": ["citadel_proto/src/proto/state_container/inbound_transfer.rs: on_group_payload_received", "citadel_proto/src/proto/session.rs: process_outbound_file", "citadel_crypt/src/scramble/streaming_crypt_scrambler.rs"]}
{"id": "C87", "title": "An accepted transfer comes to an end on both sides", "statement": "If the receiver accepts a file and the connection lasts, both users are told after finitely many steps that the transfer is complete, or that it failed.", "quantifier": "all files including the empty one, all interleavings, every transfer of a session", "why_tests_cant": "Absence of an event cannot be tested; empty files and second transfers are not covered.", "anchors": ["citadel_proto/src/proto/state_container/inbound_transfer.rs", "citadel_proto/src/proto/state_container/outbound_transfer.rs", "citadel_proto/src/proto/session.rs: process_outbound_file"]}
{"id": "C88", "title": "A file taken out of the virtual filesystem is deleted only after it has arrived", "statement": "With delete_on_pull, the stored file is deleted only when the one who pulls it has received all of it.", "quantifier": "all files, all interleavings of packets, acknowledgements and the deletion", "why_tests_cant": "The deletion runs when two thirds of the packets of the last group are acknowledged; on a fast local connection the rest arrives before anyone looks.", "anchors": ["citadel_proto/src/proto/session.rs: process_outbound_file (post_close_hook)", "citadel_proto/src/proto/packet_processor/file_packet.rs: REVFS_PULL", "citadel_crypt/src/scramble/crypt_splitter.rs: is_atleast_fifty_percent_done"]}
{"id": "C89", "title": "What is put into the remote encrypted filesystem can be got back", "statement": "A file that has been stored in the remote encrypted virtual filesystem is returned unchanged when it is pulled.", "quantifier": "all files, all group sizes, all local encryption schemes that decrypt what they encrypted", "why_tests_cant": "Tests use files smaller than one group; the stored form is longer than the file and is cut anew when it is sent back.", "anchors": ["citadel_crypt/src/scramble/crypt_splitter.rs: oneshot encryption of a group", "citadel_proto/src/proto/packet_processor/file_packet.rs: REVFS_PULL", "citadel_proto/src/proto/state_container/inbound_transfer.rs: local_decrypt"]}
{"id": "C90", "title": "Nothing a user or a peer supplies crashes the sender of a file", "statement": "No group size chosen by the user and no acknowledgement sent by the peer makes the sending side panic.", "quantifier": "all group sizes; all states of a transfer; all messages of the peer", "why_tests_cant": "Honest peers acknowledge each group header once, and nobody passes a size of zero.", "anchors": ["citadel_proto/src/proto/state_container/outbound_transfer.rs: on_group_header_ack_received", "citadel_crypt/src/scramble/streaming_crypt_scrambler.rs: scramble_encrypt_source"]}
{"id": "C91", "title": "Names and virtual paths stay inside the directory of their account", "statement": "Whatever name or virtual path a peer supplies, a file that is received or stored (and its metadata) ends up inside the directory of the account it is stored for, or the request is rejected; the directories of two accounts have nothing in common.", "quantifier": "all names and virtual paths, all account numbers, all base directories that end in a separator and contain neither backslash nor parent references", "why_tests_cant": "Path traversal is a question about all strings: separators of both kinds, dots, absolute paths and their combinations.", "anchors": ["citadel_user/src/backend/file_io_backend.rs: get_file_path, get_file_metadata_path", "citadel_user/src/misc.rs: validate_virtual_path, prepare_virtual_path"]}
{"id": "C92", "title": "An account reaches only its own virtual files", "statement": "Storing, pulling and deleting in the remote encrypted virtual filesystem on a session of one account neither shows nor changes the files of another account.", "quantifier": "all contents of the filesystem, all sessions, all requests, including those that name another account", "why_tests_cant": "Clients always put their own account number into the request, so that no test sends another one.", "anchors": ["citadel_proto/src/proto/packet_processor/file_packet.rs: REVFS_PULL, REVFS_DELETE, FILE_HEADER", "citadel_user/src/backend/file_io_backend.rs"]}
{"id": "C93", "title": "The virtual filesystem of an account behaves like a map from names to files", "statement": "A pull returns what was last stored under that name and its security level, or an error if nothing is; deleting and taking remove exactly that file; what other accounts do in between does not matter.", "quantifier": "all sequences of requests of any number of accounts; names of which none is a directory of another", "why_tests_cant": "Needs names that interact, for instance one file whose name is that of the metadata of another.", "anchors": ["citadel_user/src/backend/file_io_backend.rs: stream_object_to_backend, revfs_get_file_info, revfs_delete", "citadel_proto/src/proto/packet_processor/file_packet.rs"]}
{"id": "C94", "title": "No file is written without the acceptance of the receiver", "statement": "A file offered by a peer is opened for writing only after the receiver has accepted it, or if the receiver has asked for it by a pull; a file that was declined is not written.", "quantifier": "all sequences of offers, acceptances, refusals and pulls", "why_tests_cant": "Honest peers declare a local encryption level only in answer to a pull.", "anchors": ["citadel_proto/src/proto/state_container/inbound_transfer.rs: on_file_header_received", "citadel_proto/src/proto/packet_processor/file_packet.rs: FILE_HEADER"]}
{"id": "C95", "title": "A joint selection has one winner and both nodes know it", "statement": "When NetSelectOk has returned at both nodes, either exactly one of them holds a result, which is what its own future produced, and the other one is told that the other side succeeded; or both futures failed and both nodes report a global failure. With NetSelect exactly one node holds a result.", "quantifier": "all results of the two futures, all points in time at which they are ready, all interleavings of the messages", "why_tests_cant": "The outcome depends on how results, pings and verdicts cross; tests see a few timings.", "anchors": ["netbeam/src/sync/operations/net_select_ok.rs: resolve, NetSelectOkResult", "netbeam/src/sync/operations/net_select.rs"]}
{"id": "C96", "title": "A joint operation ends soon after its result is determined, and not before", "statement": "Once one future has succeeded or both have ended (NetSelectOk), or one has failed or both have ended (NetTryJoin), both nodes return after at most nine further messages; before that neither returns.", "quantifier": "all reachable states of the two nodes and the connection, all orders of delivery", "why_tests_cant": "The protocol exchanges pings without end while it waits; a lost ping shows only as a hang in a rare interleaving.", "anchors": ["netbeam/src/sync/operations/net_select_ok.rs: resolve", "netbeam/src/sync/operations/net_try_join.rs: resolve"]}
{"id": "C97", "title": "The first endpoint to succeed wins", "statement": "If both futures of a NetSelectOk succeed, the node whose future succeeded first gets its result.", "quantifier": "all interleavings", "why_tests_cant": "Tests give the two futures different delays and a preferred node that is not slower by less than one message.", "anchors": ["netbeam/src/sync/operations/net_select_ok.rs: NetSelectOk, resolve"]}
{"id": "C98", "title": "other_side_succeeded tells whether the other side succeeded", "statement": "In the result of NetSelectOk, other_side_succeeded is true exactly if the future of the other side produced Ok.", "quantifier": "all results, all interleavings", "why_tests_cant": "Tests read the flag only through global_failure.", "anchors": ["netbeam/src/sync/operations/net_select_ok.rs: NetSelectOkResult"]}
{"id": "C99", "title": "Ok from a joint try means that both sides succeeded", "statement": "A node that gets Some(Ok(..)) from NetTryJoin knows that the future of the other side succeeded as well; with NetJoin both nodes get their values after both futures are ready.", "quantifier": "all results, all interleavings", "why_tests_cant": "The test asserts only that one of the two nodes sees an error.", "anchors": ["netbeam/src/sync/operations/net_try_join.rs: resolve, NetTryJoinResult", "netbeam/src/sync/operations/net_join.rs"]}
{"id": "C100", "title": "Subscriptions of one connection do not mix, lose or reorder messages", "statement": "What a subscription of a multiplexed connection has received is an initial part of what was sent on the subscription with the same number at the other end; if the user keeps the subscription, nothing can arrive and nothing is left to read, it is all of it.", "quantifier": "all runs in which no opening is given up: any number of subscriptions, any order of opening, sending, dropping, delivery", "why_tests_cant": "Messages may arrive before the receiving side has opened its subscription, and while others are being closed.", "anchors": ["netbeam/src/multiplex.rs: MultiplexedConn, subscribe, get_next_prereserved", "netbeam/src/sync/network_application.rs: forward_packet", "netbeam/src/sync/subscription.rs"]}
{"id": "C101", "title": "A user who gives up an opening and tries again loses no messages", "statement": "After an opening was cancelled and retried, what is sent on a subscription that both users have and keep is received.", "quantifier": "all runs, with cancelled openings", "why_tests_cant": "Needs a cancellation at one point of the handshake and a retry before the other side has noticed.", "anchors": ["netbeam/src/multiplex.rs: catch_up_to, subscribe", "netbeam/src/sync/network_application.rs: preaction_sync"]}
{"id": "C102", "title": "The n-th subscription of one node is paired with the n-th of the other", "statement": "The subscriptions handed out have the numbers 1, 2, 3, \u2026 at both nodes, and no assertion fails.", "quantifier": "all runs in which no opening is given up, past the 32 reserved subscriptions", "why_tests_cant": "The two sides number independently up to 32 and by handshake afterwards; tests open few subscriptions.", "anchors": ["netbeam/src/multiplex.rs: get_next_prereserved, subscribe", "netbeam/src/sync/network_application.rs: preaction_sync"]}
{"id": "C103", "title": "A subscription that both users open is opened", "statement": "When nothing more happens by itself, each node has handed out at least as many subscriptions as both users have asked for; and without further calls only finitely much happens.", "quantifier": "all runs in which no opening is given up", "why_tests_cant": "From the 33rd subscription on an opening needs a mutex that close sequences keep while they wait for the peer; tests open fewer or drop at both ends.", "anchors": ["netbeam/src/sync/network_application.rs: preaction_sync, PostActionChannel"]}
{"id": "C104", "title": "Dropped subscriptions are removed", "statement": "When nothing more happens by itself, a subscription that both users have dropped is in neither table; a subscription is removed only if both have dropped it.", "quantifier": "all runs in which no opening is given up, all orders of dropping", "why_tests_cant": "A leak shows only when drops of several subscriptions overlap and the peer keeps one.", "anchors": ["netbeam/src/sync/network_application.rs: PostActionChannel, postaction_sync", "netbeam/src/sync/subscription.rs: close_sequence_for_multiplexed_bistream"]}
{"id": "C105", "title": "Network read-write lock: a write guard is the only guard", "statement": "While a user holds the guard returned by NetRwLock::write() at one node, no guard returned by read() or write() exists at either node.", "quantifier": "all executions of two nodes over an ordered link: all calls at both ends, all request times, all interleavings of the background handlers, acquirers and drop code", "why_tests_cant": "The conflicts need requests that cross on the wire and guards dropped in particular orders; the repository's tests run a few loops with sleeps.", "anchors": ["netbeam/src/sync/primitives/net_rwlock.rs:696-869", "netbeam/src/sync/primitives/net_rwlock.rs:222-250"]}
{"id": "C106", "title": "Network read-write lock: a guard exposes the value last written", "statement": "The value exposed by a guard when it is handed out, and for as long as it is held, is the value last assigned through a write guard at either node.", "quantifier": "all executions of two nodes over an ordered link", "why_tests_cant": "Stale values appear only when a read is served from the local store while the other node writes; a test sees one schedule.", "anchors": ["netbeam/src/sync/primitives/net_rwlock.rs:548-610", "netbeam/src/sync/primitives/net_rwlock.rs:222-250"]}
{"id": "C107", "title": "Network read-write lock: usable again when all guards are dropped", "statement": "If no node holds a guard, a call of read() or write() at either node is answered, given that the packets are delivered and the tasks run.", "quantifier": "all executions of two nodes over an ordered link, and all continuations", "why_tests_cant": "A deadlock is a statement about every continuation; a test that hangs cannot tell it from slowness, and the overlap that causes it depends on the schedule.", "anchors": ["netbeam/src/sync/primitives/net_rwlock.rs:260-275", "netbeam/src/sync/primitives/net_rwlock.rs:356-420", "netbeam/src/sync/primitives/net_rwlock.rs:613-693"]}
{"id": "C108", "title": "Network read-write lock: guards can be used and dropped", "statement": "Dereferencing a guard of NetRwLock, mutably in the case of a write guard, and dropping it does not panic.", "quantifier": "all executions of two nodes over an ordered link", "why_tests_cant": "The panic needs a request that lost to a request of the other kind and then wins a later conflict.", "anchors": ["netbeam/src/sync/primitives/net_rwlock.rs:471-478", "netbeam/src/sync/primitives/net_rwlock.rs:260-275", "netbeam/src/sync/primitives/net_rwlock.rs:814-856"]}
{"id": "C109", "title": "Network read-write lock: the loser of a conflict is served after the release", "statement": "If two requests conflict and the node whose request won drops its guard, the node that lost is handed its guard without any further call at either node.", "quantifier": "all executions of two nodes over an ordered link, and all continuations without calls", "why_tests_cant": "That nothing at all happens any more is a statement about all continuations.", "anchors": ["netbeam/src/sync/primitives/net_rwlock.rs:723-869", "netbeam/src/sync/primitives/net_rwlock.rs:548-610"]}
{"id": "C110", "title": "Every result of the node is handed over once, in order, to whom it concerns", "statement": "The NodeResults a node produces are handed over in the order in which they were produced, each exactly once: to the subscription with that ticket (and session, if it names one) if there is one, and otherwise, and only then, to the kernel's on_node_event_received.", "quantifier": "all sequences of requests, subscriptions, results, drops and handler completions, in which every subscription has a ticket of its own", "why_tests_cant": "A test waits for one answer; that no result is lost, doubled or misdirected while other subscriptions come and go concerns all interleavings.", "anchors": ["citadel_proto/src/kernel/kernel_communicator.rs:62-108", "citadel_proto/src/kernel/kernel_communicator.rs:156-188", "citadel_proto/src/kernel/kernel_executor.rs:187-218"]}
{"id": "C111", "title": "A subscription receives exactly the results that concern it", "statement": "From send_callback_subscription until it is dropped, the stream yields the results with its ticket and session, all of them, in order and no others, and does not end.", "quantifier": "all executions in which every subscription has a ticket of its own", "why_tests_cant": "A lost or foreign result shows only when other subscriptions are registered and dropped in between.", "anchors": ["citadel_proto/src/kernel/kernel_communicator.rs:128-174", "citadel_proto/src/kernel/kernel_communicator.rs:211-227", "citadel_proto/src/proto/remote.rs:181-201"]}
{"id": "C112", "title": "A request the node refuses is reported to the call that waits for it", "statement": "If the node rejects a request made through the SDK (no such session, an invalid argument), the waiting call returns with an error.", "quantifier": "all calls of the SDK, all sessions, all continuations", "why_tests_cant": "That a call never returns is a statement about every continuation; a test can only time out.", "anchors": ["citadel_proto/src/proto/node.rs:405-439", "citadel_proto/src/kernel/kernel_communicator.rs:62-108", "citadel_proto/src/proto/node_request.rs:132-154", "citadel_sdk/src/remote_ext.rs:1247-1269"]}
{"id": "C113", "title": "An error in its stream makes a waiting call return", "statement": "When an error result (into_result() fails) arrives in the stream of a waiting SDK call, the call returns an error.", "quantifier": "all calls of the SDK, all sequences of results", "why_tests_cant": "Each call would have to be tested with each kind of error after each prefix of other results.", "anchors": ["citadel_proto/src/proto/node_result.rs:250-283", "citadel_sdk/src/remote_ext.rs:1141-1193", "citadel_sdk/src/remote_ext.rs:1247-1269"]}
{"id": "C114", "title": "A waiting call returns when the node has ended", "statement": "When the node has shut down and execute() has returned, the stream of every subscription ends, so that waiting calls return an error.", "quantifier": "all calls of the SDK, all continuations of the shutdown", "why_tests_cant": "That a stream never ends is a statement about every continuation.", "anchors": ["citadel_proto/src/kernel/kernel_communicator.rs:128-146", "citadel_proto/src/kernel/kernel_communicator.rs:211-227", "citadel_proto/src/proto/node.rs:238-275"]}
{"id": "C115", "title": "A new subscription leaves the others as they are", "statement": "Registering a subscription does not change the stream of any other; registering one under a key in use fails and leaves the existing one working.", "quantifier": "all states of the callback handler", "why_tests_cant": "Keys collide only if tickets do, which does not happen in a test.", "anchors": ["citadel_proto/src/kernel/kernel_communicator.rs:128-146", "citadel_proto/src/kernel/kernel_communicator.rs:190-201"]}
{"id": "C116", "title": "Results reach their subscriptions whatever the kernel's handlers do", "statement": "A result that concerns a subscription is put into its stream even if calls of on_node_event_received are still running.", "quantifier": "all concurrency limits, any number of running handlers, all continuations in which none of them ends", "why_tests_cant": "The blockade needs as many simultaneously busy handlers as the limit allows; the tests use the default without limit.", "anchors": ["citadel_proto/src/kernel/kernel_executor.rs:187-218", "citadel_proto/src/kernel/mod.rs:60-72"]}
{"id": "C117", "title": "The kernel's on_stop runs once and to its end before execute() returns", "statement": "Whenever execute() returns, on_stop() has been called exactly once and has returned.", "quantifier": "all executions of the executor, all orders in which the futures of node and kernel become ready", "why_tests_cant": "Which of two ready futures select! takes is random, and on_stop is short in tests.", "anchors": ["citadel_proto/src/proto/misc/threading.rs:36-63", "citadel_proto/src/kernel/kernel_executor.rs:220-232"]}
{"id": "C118", "title": "A failing event handler makes execute() return an error", "statement": "If on_node_event_received returns an error, execute() returns an error.", "quantifier": "all executions of the executor", "why_tests_cant": "The outcome depends on which of several ready futures is polled first.", "anchors": ["citadel_proto/src/kernel/kernel_executor.rs:204-232", "citadel_proto/src/proto/misc/threading.rs:36-63"]}
{"id": "C119", "title": "Only its owner can deregister an account at the server", "statement": "An account disappears from the server through a session only if the client has logged in to that very account in the session.", "quantifier": "all histories of a server with any number of sessions and arbitrary packets, and all accounts", "why_tests_cant": "A test deregisters the account it logged in with; the claim is about every number a client can put into its packets.", "anchors": ["citadel_proto/src/proto/packet_processor/deregister_packet.rs:76-94", "citadel_proto/src/proto/packet_processor/deregister_packet.rs:127-192"]}
{"id": "C120", "title": "A client's account is deleted only when its user asks", "statement": "A client node deletes a non-transient account only after its user has requested a deregistration in that session.", "quantifier": "all histories of a client node and arbitrary packets of its servers", "why_tests_cant": "Tests use servers that only answer requests.", "anchors": ["citadel_proto/src/proto/packet_processor/deregister_packet.rs:92-95", "citadel_proto/src/proto/packet_processor/deregister_packet.rs:194-235"]}
{"id": "C121", "title": "A deregistration that is reported as done has been done", "statement": "When NodeResult::DeRegistration with success = true is delivered, the account has been removed from the local store.", "quantifier": "all histories, and all failures of the storage", "why_tests_cant": "The report and the store differ only if the deletion fails or the account is not there.", "anchors": ["citadel_proto/src/proto/packet_processor/deregister_packet.rs:144-191", "citadel_proto/src/proto/packet_processor/deregister_packet.rs:194-235"]}
{"id": "C122", "title": "A login is reported at the server only after device key and credentials were shown", "statement": "If a server delivers ConnectSuccess for account c, the client has, in this session, sent a SYN under the device key of c and then the credentials of c under the key agreed upon.", "quantifier": "all histories of a server with any number of sessions and arbitrary packets", "why_tests_cant": "It has to hold for every order of packets, including those of the registration and of failures, in every state.", "anchors": ["citadel_proto/src/proto/packet_processor/connect_packet.rs:102-250", "citadel_proto/src/proto/packet_processor/connect_packet.rs:439-453", "citadel_proto/src/proto/packet_processor/preconnect_packet.rs:81-190"]}
{"id": "C123", "title": "At most one login is reported per session", "statement": "A session delivers ConnectSuccess at most once, however often the packets of the login are repeated.", "quantifier": "all histories and arbitrary packets", "why_tests_cant": "Every interleaving and repetition of the packets of a login is meant.", "anchors": ["citadel_proto/src/proto/packet_processor/connect_packet.rs:102-118", "citadel_proto/src/proto/packet_processor/connect_packet.rs:286-305", "citadel_proto/src/proto/packet_processor/connect_packet.rs:439-453"]}
{"id": "C124", "title": "Every attempt to register or to log in is answered", "statement": "When a session that was opened by register(), connect() or a transient connection is over, its ticket has been answered with a NodeResult, so that the call returns.", "quantifier": "all histories of a client and arbitrary packets of the server", "why_tests_cant": "That no answer comes is a statement about a whole history, in particular about refusals that arrive early.", "anchors": ["citadel_proto/src/proto/packet_processor/register_packet.rs:87-105", "citadel_proto/src/proto/packet_processor/register_packet.rs:442-473", "citadel_proto/src/proto/session_manager.rs:528-668"]}
{"id": "C125", "title": "A login that was reported is followed by exactly one disconnect", "statement": "When a server session that has delivered ConnectSuccess is over, it has delivered exactly one Disconnect, for the same account.", "quantifier": "all histories of a server with any number of sessions and arbitrary packets", "why_tests_cant": "Sessions end in many ways (end of the stream, errors, deregistration, failure packets), and the tracker is shared by all sessions.", "anchors": ["citadel_proto/src/proto/session.rs:2499-2545", "citadel_proto/src/proto/session.rs:2549-2572", "citadel_proto/src/proto/packet_processor/connect_packet.rs:252-283"]}
{"id": "C126", "title": "A disconnect is reported only of what was reported as connected", "statement": "If a server session delivers Disconnect for account c, it has delivered ConnectSuccess for c before.", "quantifier": "all histories of a server and arbitrary packets", "why_tests_cant": "The session may end at any point of the login.", "anchors": ["citadel_proto/src/proto/session.rs:2499-2545", "citadel_proto/src/proto/session.rs:2549-2572", "citadel_proto/src/proto/packet_processor/preconnect_packet.rs:81-190"]}
{"id": "C127", "title": "The channel that comes with a login is that of the account", "statement": "The channel in the server's ConnectSuccess for account c has session cid c.", "quantifier": "all histories of a server and arbitrary packets", "why_tests_cant": "A client that follows the protocol puts the right number into each packet.", "anchors": ["citadel_proto/src/proto/packet_processor/connect_packet.rs:153-222"]}
{"id": "C128", "title": "The keys of a session bear the account that logged in", "statement": "The ratchet used in a connected server session names the account to which the client has logged in, also after a re-key.", "quantifier": "all histories of a server and arbitrary packets", "why_tests_cant": "The number comes from the first packet of a registration long before.", "anchors": ["citadel_proto/src/proto/packet_processor/register_packet.rs:108-150", "citadel_proto/src/proto/packet_processor/preconnect_packet.rs:81-190", "citadel_user/src/account_manager.rs:224-276"]}
{"id": "C129", "title": "A transient account does not outlive its session", "statement": "When all sessions of a node are over, no transient account is left in its store.", "quantifier": "all histories and arbitrary packets", "why_tests_cant": "The session may end at any point of registration and login.", "anchors": ["citadel_proto/src/proto/session_manager.rs:528-668", "citadel_proto/src/proto/packet_processor/register_packet.rs:246-337"]}
{"id": "C130", "title": "Registering leaves existing accounts as they are", "statement": "No event changes the credentials or keys of an account that is in the store of a node before and after it.", "quantifier": "all histories of a server or client and arbitrary packets", "why_tests_cant": "It needs two registrations that concern the same number.", "anchors": ["citadel_user/src/account_manager.rs:224-276", "citadel_user/src/account_manager.rs:280-305"]}
{"id": "C131", "title": "A client's accounts are those its user has registered", "statement": "An account that is added to the store of a client through a session has the credentials its user opened the session with.", "quantifier": "all histories of a client and arbitrary packets of the server", "why_tests_cant": "Tests use servers that do not send the packets of a client.", "anchors": ["citadel_proto/src/proto/packet_processor/register_packet.rs:79-183", "citadel_proto/src/proto/packet_processor/register_packet.rs:246-337", "citadel_proto/src/proto/packet_processor/register_packet.rs:339-440"]}
{"id": "C132", "title": "Only packets under the session key affect a connected session", "statement": "A packet of registration, login or deregistration that is not sealed under the current key of a connected session changes nothing at the node and produces no NodeResult and no answer.", "quantifier": "all states of a node, all packets", "why_tests_cant": "Every kind of packet in every state is meant.", "anchors": ["citadel_proto/src/proto/packet_processor/register_packet.rs:54-68", "citadel_proto/src/proto/packet_processor/connect_packet.rs:60-98", "citadel_proto/src/proto/packet_processor/preconnect_packet.rs:61-80", "citadel_proto/src/proto/packet_processor/deregister_packet.rs:47-76", "citadel_proto/src/proto/validation.rs:44-57"]}
{"id": "C133", "title": "A login between nodes that follow the protocol comes to its end", "statement": "With the right credentials and if no packet is lost, both nodes are connected under the same key and each delivers exactly ConnectSuccess for the account, the client's with the ticket of the request; with wrong credentials the client's node delivers ConnectFail with that ticket and the server delivers nothing.", "quantifier": "all accounts, tickets, keys, stores of both nodes and outcomes of the hole punching", "why_tests_cant": "Tests use a handful of accounts and settings.", "anchors": ["citadel_proto/src/proto/packet_processor/preconnect_packet.rs:61-530", "citadel_proto/src/proto/packet_processor/connect_packet.rs:102-453"]}
{"id": "C134", "title": "A registration takes effect at both nodes or at neither", "statement": "When the sessions are over, the account has been made at both nodes, with the same credentials and keys, or at neither, and the client's kernel has been told which.", "quantifier": "all histories of two nodes, including those in which the connection breaks", "why_tests_cant": "The connection would have to break at each point.", "anchors": ["citadel_proto/src/proto/packet_processor/register_packet.rs:246-337", "citadel_proto/src/proto/packet_processor/register_packet.rs:339-440"]}
{"id": "C135", "title": "Only sessions that are alive are listed as online", "statement": "The table of logged-in sessions of a server lists an account only with a session that is not over.", "quantifier": "all histories of a server and arbitrary packets", "why_tests_cant": "Sessions end in many ways, each of which has to clean up.", "anchors": ["citadel_proto/src/proto/packet_processor/connect_packet.rs:252-283", "citadel_proto/src/proto/session_manager.rs:528-668", "citadel_proto/src/proto/session_manager.rs:953-975"]}
{"id": "C136", "title": "The answer to an attempt bears the ticket of the request", "statement": "What the kernel is told about an attempt to register or to log in (success, failure, error) bears the ticket of the user's request, by which the waiting call finds it, whatever the server sends.", "quantifier": "all histories of a client and arbitrary packets of the server", "why_tests_cant": "Tests use servers that repeat the client's ticket.", "anchors": ["citadel_proto/src/proto/packet_processor/preconnect_packet.rs:81-190", "citadel_proto/src/proto/packet_processor/connect_packet.rs:286-437", "citadel_proto/src/proto/packet_processor/register_packet.rs:339-473"]}
{"id": "C137", "title": "A session stays listed until it ends or the account logs in again", "statement": "The entry of a logged-in session in the table of a server goes only when that session ends, or when another session shows device key and credentials of the same account.", "quantifier": "all histories of a node with any number of sessions, and all events", "why_tests_cant": "Every way in which any other session may end, at any time, is meant.", "anchors": ["citadel_proto/src/proto/session_manager.rs:528-668", "citadel_proto/src/proto/session_manager.rs:953-975", "citadel_proto/src/proto/packet_processor/connect_packet.rs:102-250"]}
{"id": "C138", "title": "A peer channel opens only if the user wanted it", "statement": "A client delivers a PeerChannelCreated for peer p only after its user has asked for a connection with p or accepted one.", "quantifier": "all histories of a client and arbitrary signals from the server", "why_tests_cant": "The server or the peer would have to send key-exchange signals nobody has asked for.", "anchors": ["citadel_proto/src/proto/session.rs:2101-2253", "citadel_proto/src/proto/packet_processor/peer_cmd_packet.rs:137-1022", "citadel_proto/src/proto/virtual_connections.rs:131-318"]}
{"id": "C139", "title": "An invitation to connect is put before the user", "statement": "A request of a peer to connect that arrives at a client is delivered to the kernel, and answered only by the user.", "quantifier": "all states of a client and all requests", "why_tests_cant": "The cases that fail need requests that cross or follow each other.", "anchors": ["citadel_proto/src/proto/packet_processor/peer_cmd_packet.rs:137-1022"]}
{"id": "C140", "title": "No signal of a peer makes the client panic", "statement": "Whatever signals arrive and in whatever order, the client does not panic.", "quantifier": "all histories of a client and arbitrary signals", "why_tests_cant": "Tests use peers and servers that follow the protocol.", "anchors": ["citadel_proto/src/proto/virtual_connections.rs:131-318", "citadel_proto/src/proto/packet_processor/peer_cmd_packet.rs:137-1022"]}
{"id": "C141", "title": "A live peer connection is kept", "statement": "As long as nothing ends the connection a user was last given with a peer, the connection is live, its keys are those handed to the user, and no second channel for the peer is delivered.", "quantifier": "all histories of a client and arbitrary signals", "why_tests_cant": "Every signal at every moment is meant.", "anchors": ["citadel_proto/src/proto/virtual_connections.rs:131-318", "citadel_proto/src/proto/packet_processor/peer_cmd_packet.rs:137-1022"]}
{"id": "C142", "title": "A disconnect of one peer connection does not end a later one", "statement": "A request to disconnect that is made while one connection with a peer is up does not end another that is made later.", "quantifier": "all histories of a client and arbitrary signals", "why_tests_cant": "It needs the answer of the server to come after the reconnection.", "anchors": ["citadel_proto/src/proto/packet_processor/peer_cmd_packet.rs:137-1022", "citadel_sdk/src/remote_ext.rs:1058-1070"]}
{"id": "C143", "title": "The channel comes under the ticket of the user's request", "statement": "The PeerChannelCreated for peer p bears the ticket of the latest request of the user about p, by which the waiting call finds it.", "quantifier": "all histories of a client and arbitrary signals", "why_tests_cant": "The failure needs an old channel to be dropped after the new request.", "anchors": ["citadel_proto/src/proto/session.rs:2101-2253", "citadel_proto/src/proto/virtual_connections.rs:131-318", "citadel_proto/src/proto/packet_processor/primary_group_packet.rs:487-528"]}
{"id": "C144", "title": "A peer channel is protected by the password the user gave", "statement": "The keys of a peer channel that is delivered are made with the session password of the user's latest request about this peer.", "quantifier": "all histories of a client and arbitrary signals", "why_tests_cant": "The peer would have to send a key-exchange signal before the request.", "anchors": ["citadel_proto/src/proto/session.rs:2101-2253", "citadel_proto/src/proto/packet_processor/peer_cmd_packet.rs:137-1022"]}
{"id": "C145", "title": "The list of peers follows the wishes of the user and the peer", "statement": "The list of mutual peers of a local account changes only for the account of the session, and gains a peer only if the user asked for it or accepted it.", "quantifier": "all histories of a client and arbitrary signals", "why_tests_cant": "Tests use servers that send only signals about the account of the session.", "anchors": ["citadel_proto/src/proto/packet_processor/peer_cmd_packet.rs:137-1022"]}
{"id": "C146", "title": "Peer packets are read only under the keys of the latest connection", "statement": "A client that reads a packet of peer p uses keys from the latest connection with p it was given.", "quantifier": "all histories of a client with re-keys and arbitrary signals", "why_tests_cant": "Keys of an earlier connection would have to be kept by some path.", "anchors": ["citadel_proto/src/proto/virtual_connections.rs:131-318", "citadel_proto/src/proto/packet_processor/peer_cmd_packet.rs:137-1022"]}
{"id": "C147", "title": "A refused peer request is reported once", "statement": "A request to connect that the peer refuses leads to exactly one report to the user.", "quantifier": "all states of a client and all requests", "why_tests_cant": "The second report comes from a different layer.", "anchors": ["citadel_proto/src/proto/packet_processor/peer_cmd_packet.rs:137-1022", "citadel_proto/src/proto/session.rs:2101-2253"]}
{"id": "C148", "title": "An accepted peer request comes to its end", "statement": "After the second user has accepted the request of the first, both get exactly one channel, to each other, with equal number and keys, under their own tickets, and no error, if the passwords agree; otherwise neither gets a channel and both are told.", "quantifier": "all pairs of clients without a connection between them, all orders of events", "why_tests_cant": "Tests see one order of events.", "anchors": ["citadel_proto/src/proto/packet_processor/peer_cmd_packet.rs:137-1022", "citadel_proto/src/proto/virtual_connections.rs:131-318"]}
{"id": "C149", "title": "Requests that cross settle into one connection", "statement": "If both users ask at the same time and the server puts either request to the other client, then both get exactly one channel, to each other, with equal number and keys, and nothing is stuck.", "quantifier": "all pairs of clients, all orders of events", "why_tests_cant": "It depends on the order in which the two requests and answers arrive.", "anchors": ["citadel_proto/src/proto/packet_processor/peer_cmd_packet.rs:137-1022", "citadel_proto/src/proto/session.rs:2101-2253"]}
{"id": "C150", "title": "Requests that the server finds to cross settle into one connection", "statement": "If both users ask at the same time and the server takes one request for the acceptance of the other, then both get exactly one channel, to each other, with equal number and keys, and nothing is stuck.", "quantifier": "all pairs of clients, all orders of events", "why_tests_cant": "It depends on the order in which requests and answers arrive.", "anchors": ["citadel_proto/src/proto/packet_processor/peer_cmd_packet.rs:137-1022", "citadel_proto/src/proto/packet_processor/peer_cmd_packet.rs:1089-1155"]}
{"id": "C151", "title": "No error is reported for a peer request that succeeds", "statement": "A user whose request has led to a connection is told of no error.", "quantifier": "all pairs of clients, all orders of events", "why_tests_cant": "It needs requests that cross.", "anchors": ["citadel_proto/src/proto/packet_processor/peer_cmd_packet.rs:137-1022"]}
{"id": "C152", "title": "Each peer channel has keys of its own", "statement": "The keys of a peer channel that is delivered rest on a number the client has drawn since it last delivered a channel for that peer; no signal, sent again, brings back the keys of an earlier connection.", "quantifier": "all histories of a client and arbitrary signals", "why_tests_cant": "The server or the peer would have to repeat signals of an earlier connection at each point of a later one.", "anchors": ["citadel_proto/src/proto/packet_processor/peer_cmd_packet.rs:272-383", "citadel_proto/src/proto/packet_processor/peer_cmd_packet.rs:408-506", "citadel_proto/src/proto/packet_processor/peer_cmd_packet.rs:508-934"]}
{"id": "C153", "title": "A command of the user about a peer is passed on or answered", "statement": "Each request of the user about a peer (connect, answer, disconnect, register, ...) is sent to the server or answered to the kernel, under the ticket of the request.", "quantifier": "all histories of a client, all requests", "why_tests_cant": "The failure needs a request about a connection that has been replaced.", "anchors": ["citadel_proto/src/proto/session.rs:2101-2253"]}
{"id": "C154", "title": "Keep-alives do not end a session whose nodes are alive", "statement": "A session between two nodes that are alive, follow the protocol and are reached without much delay is not ended by the keep-alive subsystem, whatever keep-alive timeout the user has asked for.", "quantifier": "all timeouts, delays, clock differences, numbers of rounds and events in between", "why_tests_cant": "A round takes half an hour.", "anchors": ["citadel_proto/src/proto/state_container/monitoring.rs:9-64", "citadel_proto/src/proto/packet_processor/keep_alive_packet.rs:53-135", "citadel_proto/src/proto/session.rs:1225-1243", "citadel_sdk/src/remote_ext.rs:305-330"]}
{"id": "C155", "title": "A session whose other node has gone is ended", "statement": "When the other node of a connected session has gone without a word, the session is ended some bounded time later (with keep-alives switched on).", "quantifier": "all timeouts and all histories of the session before", "why_tests_cant": "Tests do not wait for timeouts of 45 minutes.", "anchors": ["citadel_proto/src/proto/state_container/monitoring.rs:9-64", "citadel_proto/src/proto/session.rs:1225-1243", "citadel_proto/src/proto/state_subcontainers/meta_expiry_container.rs:32-52"]}
{"id": "C156", "title": "The keep-alive timeout is the one the user asked for", "statement": "connect() with a keep_alive_timeout uses that timeout, and 45 minutes without one.", "quantifier": "all durations", "why_tests_cant": "Tests use a few round numbers.", "anchors": ["citadel_sdk/src/remote_ext.rs:305-330", "citadel_proto/src/proto/node.rs:493-515", "citadel_proto/src/proto/session_manager.rs:455-465", "citadel_proto/src/proto/packet_processor/preconnect_packet.rs:145-160"]}
{"id": "C157", "title": "A two-way channel delivers in order", "statement": "What an end of a netbeam Channel has received is a first part of what the other end has sent: in order, nothing twice, nothing left out in between.", "quantifier": "all interleavings of sending, receiving, dropping and the closing tasks of both ends", "why_tests_cant": "Values, words of closing and a task that also reads share one stream; the interleavings are unbounded.", "anchors": ["netbeam/src/sync/channel/bi_channel.rs:114-153", "netbeam/src/sync/channel/bi_channel.rs:178-282"]}
{"id": "C158", "title": "A value sent over a two-way channel reaches an end that reads on", "statement": "When send_item has returned Ok and the other end reads until it is told to stop, it has received the value.", "quantifier": "all interleavings of sending, receiving, dropping and the closing tasks of both ends", "why_tests_cant": "The loss needs a send between two instructions of a task.", "anchors": ["netbeam/src/sync/channel/bi_channel.rs:114-125", "netbeam/src/sync/channel/bi_channel.rs:250-282"]}
{"id": "C159", "title": "The halves of a two-way channel can be used independently", "statement": "An end that drops its receiving half can go on sending over its sending half to an end that receives.", "quantifier": "all interleavings of sending, receiving, dropping and the closing tasks of both ends", "why_tests_cant": "No test keeps one half; whether the send fails depends on when the task runs.", "anchors": ["netbeam/src/sync/channel/bi_channel.rs:45-49", "netbeam/src/sync/channel/bi_channel.rs:178-214", "netbeam/src/sync/channel/bi_channel.rs:250-282"]}
{"id": "C160", "title": "A two-way channel that both ends have dropped is closed", "statement": "When both ends of a Channel are dropped, the tasks that close it come to their end.", "quantifier": "all interleavings of sending, receiving, dropping and the closing tasks of both ends", "why_tests_cant": "A task that waits for ever is not seen by a test.", "anchors": ["netbeam/src/sync/channel/bi_channel.rs:250-282"]}
{"id": "C161", "title": "A call gets the answer to its own request", "statement": "TrackedCallbackChannel::send returns the reply to the request it has sent, whatever other calls, notifications and drops are under way.", "quantifier": "all interleavings of calls, replies in any order, drops, and all lengths of the queue", "why_tests_cant": "Tests answer each request at once and in order.", "anchors": ["netbeam/src/sync/tracked_callback_channel.rs:109-198"]}
{"id": "C162", "title": "A request is answered at most once", "statement": "try_reply is accepted for a request whose caller waits, and refused for a request that was replied to before and for one that expects no reply.", "quantifier": "all interleavings of calls, replies in any order, drops, and all lengths of the queue", "why_tests_cant": "A second reply may come after any number of other events, when an id could have been used again.", "anchors": ["netbeam/src/sync/tracked_callback_channel.rs:93-107", "netbeam/src/sync/tracked_callback_channel.rs:169-182"]}
{"id": "C163", "title": "Calls return when the receiver is gone", "statement": "When the receiver of a TrackedCallbackChannel is dropped, every call of send returns.", "quantifier": "all interleavings of calls, replies, drops, and all lengths of the queue", "why_tests_cant": "A test of a call that waits for ever does not end; it depends on whether the request was in the queue.", "anchors": ["netbeam/src/sync/tracked_callback_channel.rs:128-153"]}
{"id": "C164", "title": "Slots are kept only for calls under way", "statement": "The table of a TrackedCallbackChannel holds a slot only for calls that have not returned, and its queue no more requests than its length.", "quantifier": "all interleavings of calls, replies, drops, and all lengths of the queue", "why_tests_cant": "The leak needs a call that is cancelled while the queue is full.", "anchors": ["netbeam/src/sync/tracked_callback_channel.rs:128-153", "netbeam/src/sync/tracked_callback_channel.rs:169-182"]}
{"id": "C165", "title": "Two nodes that synchronise start at the same time", "statement": "sync_execute runs the given function at both nodes at about the same time: the two starts differ by no more than the messages took.", "quantifier": "all message delays and all pairs of clocks that run at the right speed", "why_tests_cant": "Tests run both nodes on one machine, with one clock.", "anchors": ["netbeam/src/sync/sync_start.rs:157-228", "netbeam/src/time_tracker.rs:68-90"]}
{"id": "C166", "title": "A node that synchronises starts soon after the last message, and not before it", "statement": "After the three messages of sync_execute a node starts within the time the messages took; no node starts before it has heard that the other takes part.", "quantifier": "all message delays and all clocks, also such as are set while the messages are under way", "why_tests_cant": "Tests do not set the clock.", "anchors": ["netbeam/src/sync/sync_start.rs:180-228"]}
{"id": "C167", "title": "recv returns the messages that were sent", "statement": "ReliableOrderedStreamToTarget::recv over a TcpStream or StreamWrapper returns the next message in the ordered sequence: messages come one by one, in order, as they were sent.", "quantifier": "all messages, all interleavings of sends and reads and all amounts the kernel takes and gives", "why_tests_cant": "Where the kernel cuts a stream cannot be set by a test.", "anchors": ["netbeam/src/reliable_conn.rs:54-76", "netbeam/src/reliable_conn.rs:141-232"]}
{"id": "C168", "title": "Ok from send_to_peer means that the message was passed on", "statement": "When send_to_peer returns Ok, the whole of the message was handed to the stream.", "quantifier": "all messages and all amounts the kernel takes", "why_tests_cant": "Writes of a part occur when the buffer of the kernel is nearly full.", "anchors": ["netbeam/src/reliable_conn.rs:146-161", "netbeam/src/reliable_conn.rs:217-221"]}
{"id": "C169", "title": "recv_until_serialized returns the first message that fits, or an error", "statement": "recv_until_serialized returns the first message that can be deserialised and passes the test, skipping all others, and returns an error when the connection has ended.", "quantifier": "all sequences of messages and errors, all types and tests", "why_tests_cant": "A test of a loop without end does not end.", "anchors": ["netbeam/src/reliable_conn.rs:112-130", "netbeam/src/reliable_conn.rs:163-180"]}
{"id": "C170", "title": "A stream wrapper can send while it receives", "statement": "send_to_peer over a StreamWrapper does not wait for a message of the other end.", "quantifier": "all interleavings of calls at both ends", "why_tests_cant": "It takes both ends to wait at the same time.", "anchors": ["netbeam/src/reliable_conn.rs:205-232"]}
{"id": "C171", "title": "The key-value store of a connection returns what was last stored", "statement": "With the memory and file backends, get returns the value last set and not removed since, set and remove return the value before, get_all and remove_all the whole map.", "quantifier": "all histories of operations over all sessions, peers and keys, for sessions whose account exists", "why_tests_cant": "A claim about every history, not a chosen one.", "anchors": ["citadel_sdk/src/backend_kv_store.rs:47-106", "citadel_user/src/backend/memory.rs:325-434", "citadel_user/src/backend/file_io_backend.rs:288-353"]}
{"id": "C172", "title": "The SQL backend returns what was last stored", "statement": "With the SQL backend, set creates or overwrites the value of a key, so that get returns the value last set and not removed since, and all operations agree.", "quantifier": "all histories of operations over all sessions, peers and keys, and all choices of the database among rows", "why_tests_cant": "Which row a SELECT returns is up to the database; a test sees one choice.", "anchors": ["citadel_sdk/src/backend_kv_store.rs:71-80", "citadel_user/src/backend/sql_backend.rs:189", "citadel_user/src/backend/sql_backend.rs:769-911"]}
{"id": "C173", "title": "The stores of connections are separate", "statement": "What is stored or removed under one session, peer or map changes nothing under another, with the memory and the SQL backend.", "quantifier": "all states of the store and all operations", "why_tests_cant": "A claim about all pairs of connections.", "anchors": ["citadel_sdk/src/backend_kv_store.rs:102-105", "citadel_user/src/backend/memory.rs:325-434", "citadel_user/src/backend/sql_backend.rs:769-911"]}
{"id": "C174", "title": "Ok from set means that the value is stored", "statement": "When set returns Ok, a get right after it returns the value.", "quantifier": "all states of the memory backend", "why_tests_cant": "The failure needs an account that is removed while its connection is in use.", "anchors": ["citadel_user/src/backend/memory.rs:370-391"]}
{"id": "C175", "title": "A client that leaves does not end the services of others", "statement": "At an InternalServiceKernel of a server, services run in isolated contexts: what one client or its service does, also ending, leaves the other clients served.", "quantifier": "all sets of clients and all interleavings of connecting, data and ends", "why_tests_cant": "The tests of the prefab connect a single client, and end with it.", "anchors": ["citadel_sdk/src/prefabs/shared/internal_service.rs:99-114", "citadel_sdk/src/prefabs/server/internal_service.rs:85-100", "citadel_proto/src/proto/node.rs:239-270"]}
{"id": "C176", "title": "What a service has written before it returns reaches the client", "statement": "Packets a service has written with Ok are sent to its client, also when the service returns right after.", "quantifier": "all interleavings of the service and the task that forwards its packets", "why_tests_cant": "Which branch of a select! runs first is random.", "anchors": ["citadel_sdk/src/prefabs/shared/internal_service.rs:91-109", "citadel_sdk/src/prefabs/shared/internal_service.rs:124-138"]}
{"id": "C177", "title": "A service and its client exchange their own data, in order", "statement": "A service reads what its client sent and its client gets what the service wrote, in order, with nothing left out before the end and nothing of another client.", "quantifier": "all sets of clients and all interleavings", "why_tests_cant": "A claim about all interleavings of many clients.", "anchors": ["citadel_sdk/src/prefabs/shared/internal_service.rs:66-97", "citadel_sdk/src/prefabs/shared/internal_service.rs:123-153"]}
