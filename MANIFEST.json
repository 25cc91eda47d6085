{
 "claims": [
  {
   "property": "C01",
   "status": "proved",
   "theorems": [
    "C01_no_id_accepted_twice",
    "C01_issued_ids_distinct"
   ],
   "note": ""
  },
  {
   "property": "C02",
   "status": "proved",
   "theorems": [
    "C02_verdict_is_window_rule"
   ],
   "note": ""
  },
  {
   "property": "C03",
   "status": "proved",
   "theorems": [
    "C03_memory_bounded",
    "C03_only_accepted_remembered"
   ],
   "note": ""
  },
  {
   "property": "C04",
   "status": "partial",
   "theorems": [
    "C04_at_most_once_unmodified",
    "C04_forgery_changes_nothing",
    "C04_reject_level0_partial",
    "C04_refuted"
   ],
   "note": "At-most-once, unmodified delivery and no effect of forgeries proved in the ideal-AEAD model. The clause that a rejected packet leaves the state unchanged is false for security levels above 0 (C04_refuted), and proved for level 0 (C04_reject_level0_partial)."
  },
  {
   "property": "C05",
   "status": "proved",
   "theorems": [
    "C05_round_trip",
    "C05_levels_checked",
    "C05_no_level_change"
   ],
   "note": ""
  },
  {
   "property": "C06",
   "status": "proved",
   "theorems": [
    "C06_both_ends_match",
    "C06_level_limit"
   ],
   "note": ""
  },
  {
   "property": "C07",
   "status": "proved",
   "theorems": [
    "C07_different_passwords_fail",
    "C07_only_concatenation_counts",
    "C07_raw_lists_ambiguous"
   ],
   "note": "Proved for lists configured through PreSharedKey (each password hashed). C07_raw_lists_ambiguous records that unhashed entries would be ambiguous because entries are concatenated without separators."
  },
  {
   "property": "C08",
   "status": "proved",
   "theorems": [
    "C08_prefix",
    "C08_exact",
    "C08_no_invention",
    "C08_monotone",
    "C08_buffer_only_undelivered"
   ],
   "note": ""
  },
  {
   "property": "C09",
   "status": "proved",
   "theorems": [
    "C09_lookup_exact",
    "C09_endpoints"
   ],
   "note": ""
  },
  {
   "property": "C10",
   "status": "proved",
   "theorems": [
    "C10_truncation_exact",
    "C10_refused_update_changes_nothing",
    "C10_refused_truncation_changes_nothing",
    "C10_capacity_respected"
   ],
   "note": ""
  },
  {
   "property": "C11",
   "status": "proved",
   "theorems": [
    "C11_no_round_fails",
    "C11_always_readable",
    "C11_never_two_keys",
    "C11_versions_close",
    "C11_idle_agree",
    "C11_completion_advances",
    "C11_key_never_replaced"
   ],
   "note": "Proved for every interleaving of the pieces of triggers at both ends and in-order deliveries, with no round timing out; the ring keeps at least three keys."
  },
  {
   "property": "C12",
   "status": "proved",
   "theorems": [
    "C12_coordinates_decode",
    "C12_decode_sound"
   ],
   "note": ""
  },
  {
   "property": "C13",
   "status": "partial",
   "theorems": [
    "C13_reassembly_partial",
    "C13_symmetric_partial",
    "C13_exact_multiple_refuted"
   ],
   "note": "Proved for every cipher with the stated length behaviour and every length that is not a multiple of the plaintext bytes per wave. False for exact multiples (C13_exact_multiple_refuted): the description says the last wave is empty."
  },
  {
   "property": "C14",
   "status": "partial",
   "theorems": [
    "C14_accepted_partial",
    "C14_symmetric_partial",
    "C14_multiples_refuted"
   ],
   "note": "For the symmetric ciphers a description validates exactly when the length is not a multiple of 7032 (C14_symmetric_partial); hence false as stated (C14_multiples_refuted)."
  },
  {
   "property": "C15",
   "status": "partial",
   "theorems": [
    "C15_all_waves_partial",
    "C15_receiver_partial",
    "C15_duplicate_ack_refuted",
    "C15_never_finishes_refuted"
   ],
   "note": "Proved when each wave is acknowledged at most once, and for every receiver fed the sender's packets. False for repeated acknowledgements (C15_duplicate_ack_refuted) and for remote-filesystem transfers of exact-multiple length (C15_never_finishes_refuted)."
  },
  {
   "property": "C16",
   "status": "proved",
   "theorems": [
    "C16_partitions",
    "C16_builder",
    "C16_extract",
    "C16_limit_is_sharp",
    "C16_empty_header_unusable"
   ],
   "note": "The 4 GiB bound is necessary: C16_limit_is_sharp shows that at exactly 2^32 bytes the extension window starts at byte 0."
  },
  {
   "property": "C17",
   "status": "proved",
   "theorems": [
    "C17_header_round_trip",
    "C17_header_reparse",
    "C17_short_refused"
   ],
   "note": ""
  },
  {
   "property": "C18",
   "status": "proved",
   "theorems": [
    "C18_obfuscation_transparent",
    "C18_payload_untouched"
   ],
   "note": ""
  },
  {
   "property": "C19",
   "status": "proved",
   "theorems": [
    "C19_paths_are_ancestors",
    "C19_copath_partitions",
    "C19_tree_exists"
   ],
   "note": "Unbounded slot numbers (the code's u32 agree up to 2^31 slots)."
  },
  {
   "property": "C20",
   "status": "proved",
   "theorems": [
    "C20_resolution_reaches_members",
    "C20_keys_known_only_below"
   ],
   "note": "Coverage holds for any primitives meeting the laws; secrecy of the listed keys with symbolic cryptography (TreeSym_Spec)."
  },
  {
   "property": "C21",
   "status": "proved",
   "theorems": [
    "C21_members_agree",
    "C21_commit_effect",
    "C21_members_read_each_other"
   ],
   "note": "All histories, any committers and randomness, any primitives meeting the laws."
  },
  {
   "property": "C22",
   "status": "proved",
   "theorems": [
    "C22_removed_member_locked_out",
    "C22_only_current_members",
    "C22_histories_complete"
   ],
   "note": "Symbolic cryptography; attacker has all messages, all states ever held by the removed member, and its own random numbers."
  },
  {
   "property": "C23",
   "status": "proved",
   "theorems": [
    "C23_gate",
    "C23_any_delivery",
    "C23_prefix_agrees",
    "C23_epoch_numbers"
   ],
   "note": "For an owner that does not kick its own account. A member whose removal commit arrives keeps its epoch and only its copy of the tree changes; this is part of the in-order state."
  },
  {
   "property": "C24",
   "status": "partial",
   "theorems": [
    "C24_one_key_per_message_partial",
    "C24_one_key_per_message_refuted",
    "C24_opened_only_in_its_epoch"
   ],
   "note": "Proved up to 2^32 messages per sender and epoch; refuted beyond, since the u32 counter wraps."
  },
  {
   "property": "C25",
   "status": "proved",
   "theorems": [
    "C25_superiors_read",
    "C25_units_exist",
    "C25_others",
    "C25_unit_secret",
    "C25_message_secret",
    "C25_demoted_reads_nothing"
   ],
   "note": ""
  },
  {
   "property": "C26",
   "status": "proved",
   "theorems": [
    "C26_ancestor_is_prefix",
    "C26_partial_order",
    "C26_parse_canonical",
    "C26_parse_of_written"
   ],
   "note": ""
  },
  {
   "property": "C27",
   "status": "proved",
   "theorems": [
    "C27_answers_exact",
    "C27_at_most_one",
    "C27_first_granted"
   ],
   "note": ""
  },
  {
   "property": "C28",
   "status": "partial",
   "theorems": [
    "C28_refuted",
    "C28_members_asked_partial",
    "C28_if_owner_accepts_partial"
   ],
   "note": "False: a peer can ask to join a private group and then send the acceptance for itself; the server does not check who accepts (C28_refuted). Proved: a member of a private group was invited or asked itself, and an acceptance was sent for it by somebody; and the full claim if acceptances come only from the owner or are for invited peers."
  },
  {
   "property": "C29",
   "status": "partial",
   "theorems": [
    "C29_exactly_the_members_partial",
    "C29_nothing_else",
    "C29_removed_gets_nothing",
    "C29_refuted",
    "C29_header_partial"
   ],
   "note": "False when a client puts another account into the packet header, which the server does not compare with the session: that account is left out and the sender gets a copy (C29_refuted). Proved for clients that use their own account, and for any header relative to the account it names."
  },
  {
   "property": "C30",
   "status": "partial",
   "theorems": [
    "C30_only_the_owner_removes_partial",
    "C30_one_signal_partial",
    "C30_refuted",
    "C30_end_refuted",
    "C30_header_partial"
   ],
   "note": "False when a client puts the owner's account into the packet header (C30_refuted, C30_end_refuted). Proved for clients that use their own account, and for any header relative to the account it names."
  },
  {
   "property": "C31",
   "status": "partial",
   "theorems": [
    "C31_at_most_once",
    "C31_not_early_partial",
    "C31_refuted",
    "C31_after_reconnect_refuted"
   ],
   "note": "The half about being consumed at most once (and no panic) is proved for all call sequences. The half about deadlines is false when a ticket is used again while its request is pending or after a reconnect (C31_refuted, C31_after_reconnect_refuted); proved otherwise (C31_not_early_partial)."
  },
  {
   "property": "C32",
   "status": "partial",
   "theorems": [
    "C32_refuted",
    "C32_late_release_refuted",
    "C32_registration_refuted",
    "C32_partial",
    "C32_full_refuted",
    "C32_waited_partial"
   ],
   "note": "Refuted in three ways: an attempt that waited for an ending session goes ahead without a reservation (C32_refuted); an attempt whose reservation has lapsed releases that of its successor (C32_late_release_refuted); a failed registration hides the socket from the search (C32_registration_refuted). Proved for runs without these (C32_partial)."
  },
  {
   "property": "C33",
   "status": "partial",
   "theorems": [
    "C33_replacement_stays",
    "C33_same_instant_refuted"
   ],
   "note": "Proved for all runs in which no two connections are accepted at the same instant of the clock; the code tells sessions apart by that instant, so equal instants refute it (C33_same_instant_refuted)."
  },
  {
   "property": "C34",
   "status": "partial",
   "theorems": [
    "C34_refuted",
    "C34_partial"
   ],
   "note": "False as stated (C34_refuted): the password-less credential variant is accepted on a password account. C34_partial: exact rule for every other variant."
  },
  {
   "property": "C35",
   "status": "partial",
   "theorems": [
    "C35_refuted",
    "C35_partial",
    "C35_only_that_password_partial"
   ],
   "note": "False as stated (C35_refuted): the password is trimmed at registration but not at login. C35_partial: holds for passwords without surrounding white space."
  },
  {
   "property": "C36",
   "status": "proved",
   "theorems": [
    "C36_id_reused_only_after_delete",
    "C36_name_reused_only_after_delete",
    "C36_unique_names",
    "C36_registration_effect"
   ],
   "note": ""
  },
  {
   "property": "C37",
   "status": "partial",
   "theorems": [
    "C37_symmetric_partial",
    "C37_deregister_partial",
    "C37_refuted",
    "C37_self_registration_hangs"
   ],
   "note": "Symmetry and no-dangling-peer proved for all histories (C37_symmetric_partial). The deregistration clause is false after a double registration (C37_refuted) and proved for duplicate-free lists (C37_deregister_partial). Self-registration never returns (C37_self_registration_hangs)."
  },
  {
   "property": "C38",
   "status": "proved",
   "theorems": [
    "C38_storage_is_a_map"
   ],
   "note": ""
  },
  {
   "property": "C39",
   "status": "partial",
   "theorems": [
    "C39_refuted",
    "C39_at_most_once_partial",
    "C39_exactly_once_partial",
    "C39_next_connect_partial"
   ],
   "note": "False: the task that ends a session empties the account's mailbox after the session has left the session map, so mail deposited in between is lost (C39_refuted). Proved: order kept, nothing twice, nothing of another account; and exactly once over any stretch without such an ending."
  },
  {
   "property": "C40",
   "status": "proved",
   "theorems": [
    "C40_mutual_exclusion"
   ],
   "note": "For schedules without cancelled lock() futures and without a dropped mutex; these two are C66 and C67."
  },
  {
   "property": "C41",
   "status": "partial",
   "theorems": [
    "C41_refuted",
    "C41_lost_wakeup_refuted",
    "C41_lone_request_partial",
    "C41_hand_over_partial"
   ],
   "note": "False: after both ends asked at once, the second holder's release reaches an idle background handler, which drops it unconfirmed; the drop code then waits for ever (C41_refuted). A lone request can also be stranded by a wake-up taken too early (C41_lost_wakeup_refuted). The partial theorem shows the ordinary grant."
  },
  {
   "property": "C42",
   "status": "proved",
   "theorems": [
    "C42_guard_sees_last_write",
    "C42_held_value_is_last_write"
   ],
   "note": ""
  },
  {
   "property": "C43",
   "status": "proved",
   "theorems": [
    "C43_byte_decoding_exact",
    "C43_params_round_trip",
    "C43_validity_rule"
   ],
   "note": ""
  },
  {
   "property": "C44",
   "status": "proved",
   "theorems": [
    "C44_security_level_round_trip",
    "C44_same_layers",
    "C44_injective",
    "C44_range_checked"
   ],
   "note": ""
  },
  {
   "property": "C45",
   "status": "proved",
   "theorems": [
    "C45_compare_decides_equality"
   ],
   "note": ""
  },
  {
   "property": "C46",
   "status": "partial",
   "theorems": [
    "C46_refuted",
    "C46_wrap_refuted",
    "C46_partial",
    "C46_full_refuted"
   ],
   "note": "Refuted: tickets are group number + counter, so two groups can share one; two files sent to the server in turn make one timer run the other's callback and the second expiry panic (C46_refuted). A group number near 2^64 replaces a reserved timer (C46_wrap_refuted). Proved (the queue refines a set of independent timers) when reserved tickets are used once and the group numbers of an account never go down."
  },
  {
   "property": "C47",
   "status": "proved",
   "theorems": [
    "C47_nonces_distinct",
    "C47_bound_is_sharp",
    "C47_restored_copy",
    "C47_receiver_nonce",
    "C47_short_buffer_refused"
   ],
   "note": ""
  },
  {
   "property": "C48",
   "status": "partial",
   "theorems": [
    "C48_rule_in_bytes_partial",
    "C48_ascii_partial",
    "C48_refuted",
    "C48_password_rule_not_applied"
   ],
   "note": "False for characters (C48_refuted): lengths are UTF-8 bytes. Proved exactly for bytes and hence for ASCII strings. Registration never applies the password rule (C48_password_rule_not_applied)."
  },
  {
   "property": "C49",
   "status": "partial",
   "theorems": [
    "C49_refuted",
    "C49_nothing_invented_partial"
   ],
   "note": "False (C49_refuted): the anti-replay window of the static ratchet is cleared at the start of each session. C49_nothing_invented_partial: accepted packets are still always ones the other end sealed."
  },
  {
   "property": "C50",
   "status": "partial",
   "theorems": [
    "C50_no_crash_partial",
    "C50_crash_refuted"
   ],
   "note": "Proved for descriptions with a partial last wave and the local port-map width; false otherwise (C50_crash_refuted)."
  },
  {
   "property": "C51",
   "status": "proved",
   "theorems": [
    "C51_memory"
   ],
   "note": ""
  },
  {
   "property": "C52",
   "status": "partial",
   "theorems": [
    "C52_waves_swapped_refuted",
    "C52_integrity_refuted",
    "C52_only_decrypted_partial"
   ],
   "note": "False for every cipher (C52_waves_swapped_refuted, C52_integrity_refuted): the wave number is not authenticated. What holds: every stored wave is a successful decryption (C52_only_decrypted_partial)."
  },
  {
   "property": "C53",
   "status": "partial",
   "theorems": [
    "C53_responder_bad_signature_partial",
    "C53_responder_all_layers_partial",
    "C53_initiator_bad_signature_partial",
    "C53_stripped_refuted"
   ],
   "note": "A badly signed key or ciphertext is refused at both ends (partial theorems). False as stated (C53_stripped_refuted): a message with the signatures simply left out is accepted, for every non-hybrid cipher."
  },
  {
   "property": "C54",
   "status": "proved",
   "theorems": [
    "C54_no_passwordless_account"
   ],
   "note": ""
  },
  {
   "property": "C55",
   "status": "partial",
   "theorems": [
    "C55_refuted",
    "C55_owner_gate_partial"
   ],
   "note": "False (C55_refuted): a commit made by any other member is accepted, and the owner's commit with the same epoch is then ignored. C55_owner_gate_partial: the functions that make commits refuse on a non-owner's state."
  },
  {
   "property": "C56",
   "status": "partial",
   "theorems": [
    "C56_refuted",
    "C56_secrets_kept_partial"
   ],
   "note": "False (C56_refuted): the tree is overwritten before the path secrets are opened. C56_secrets_kept_partial: epoch, secrets and held keys stay."
  },
  {
   "property": "C57",
   "status": "partial",
   "theorems": [
    "C57_partial",
    "C57_sizes_partial",
    "C57_refuted"
   ],
   "note": "False as stated (C57_refuted): a commit naming a slot outside the tree never returns. Proved: any sequence of commits that name only slots of the tree is processed, refused or skipped, whoever made it (C57_partial, C57_sizes_partial)."
  },
  {
   "property": "C58",
   "status": "partial",
   "theorems": [
    "C58_refuted",
    "C58_partial",
    "C58_refused_partial"
   ],
   "note": "False as stated (C58_refuted): a key package with an unusable key blocks every later add and re-key. Proved: with honest key packages every add and re-key succeeds after any history; a refused caller changes nothing."
  },
  {
   "property": "C59",
   "status": "partial",
   "theorems": [
    "C59_refuted",
    "C59_partial",
    "C59_next_demotion_partial"
   ],
   "note": "False as stated (C59_refuted): a removal does not draw a new root. Proved: a removed member reads exactly the later messages of units it was put above in the generation still in use, and nothing of a superior-only group after the next demotion."
  },
  {
   "property": "C60",
   "status": "partial",
   "theorems": [
    "C60_refuted",
    "C60_owner_refuted",
    "C60_partial",
    "C60_owner_only_partial"
   ],
   "note": "False as stated (C60_refuted for members, C60_owner_refuted for the owner): assignments are not authenticated. Proved: without made-up assignments every member has the position in the owner's table, and an assignment on the wire affects only the member it was made for."
  },
  {
   "property": "C61",
   "status": "partial",
   "theorems": [
    "C61_refuted",
    "C61_some_session_partial"
   ],
   "note": "False: the server checks neither the membership of the sender nor the sender field (C61_refuted). Proved: a message is delivered only because some session sent it."
  },
  {
   "property": "C62",
   "status": "partial",
   "theorems": [
    "C62_refuted",
    "C62_add_partial"
   ],
   "note": "False: the initial invitees of a group are not checked, and anybody joins a public group (C62_refuted). Proved: later invitations are checked."
  },
  {
   "property": "C63",
   "status": "partial",
   "theorems": [
    "C63_refuted",
    "C63_partial",
    "C63_invited_partial"
   ],
   "note": "False as stated (C63_refuted). Proved: an invitation stays open, and accepting it makes the account a member, through any history without an event that settles it; adding or creating with mutual accounts opens one."
  },
  {
   "property": "C64",
   "status": "partial",
   "theorems": [
    "C64_partial",
    "C64_refuted"
   ],
   "note": "False as stated (C64_refuted). Proved: from any state in which both ends are at rest with the same keys and use the newest, re-keying works again until the next timeout."
  },
  {
   "property": "C65",
   "status": "partial",
   "theorems": [
    "C65_alone_partial",
    "C65_refuted"
   ],
   "note": "False: a trigger that took its metadata before a round of the peer completed sends a message the peer skips, and stays toggled on; the peer's next round then waits for the timeout. Proved: a round left alone completes."
  },
  {
   "property": "C66",
   "status": "partial",
   "theorems": [
    "C66_refuted"
   ],
   "note": "False: two cancelled requests make the other end's handler give up; a stale answer and a won comparison then hand out two guards."
  },
  {
   "property": "C67",
   "status": "partial",
   "theorems": [
    "C67_refuted"
   ],
   "note": "False: the Halt sent by a dropped mutex is taken for the lock by a waiting acquirer while the guard is still held."
  },
  {
   "property": "C68",
   "status": "partial",
   "theorems": [
    "C68_refuted",
    "C68_partial"
   ],
   "note": "False: the server takes the account from the signal and does not compare it with the session. True of clients that name themselves."
  },
  {
   "property": "C69",
   "status": "partial",
   "theorems": [
    "C69_refuted",
    "C69_partial"
   ],
   "note": "False: the server answers for the account named in the request. True of clients that name themselves."
  },
  {
   "property": "C70",
   "status": "partial",
   "theorems": [
    "C70_refuted",
    "C70_forged_refuted",
    "C70_partial"
   ],
   "note": "False even with truthful clients: the kind of the pending request is not checked, so a request to connect can be answered as a request to register; and by a forged header without any ticket. Proved for clients that name themselves and answer only what they were asked."
  },
  {
   "property": "C71",
   "status": "partial",
   "theorems": [
    "C71_refuted",
    "C71_partial"
   ],
   "note": "False: a third client that names the asked account as its own is joined instead of it. Proved for clients that name themselves and answer only what they were asked."
  },
  {
   "property": "C72",
   "status": "partial",
   "theorems": [
    "C72_refuted",
    "C72_partial"
   ],
   "note": "False: the server sets up the virtual connection whatever the answer. Proved: both must have asked or answered."
  },
  {
   "property": "C73",
   "status": "partial",
   "theorems": [
    "C73_refuted",
    "C73_partial"
   ],
   "note": "False: the connection is only marked inactive and check_proxy does not look at the mark. Proved for the end of a session."
  },
  {
   "property": "C74",
   "status": "partial",
   "theorems": [
    "C74_refuted",
    "C74_partial"
   ],
   "note": "False: a deregistration by the other side within the last hour is taken for a simultaneous one even after registering again. Proved if none is kept."
  },
  {
   "property": "C75",
   "status": "partial",
   "theorems": [
    "C75_refuted",
    "C75_connect_refuted",
    "C75_partial"
   ],
   "note": "False: a client that answers its own request makes the handler take one lock twice. Proved: no panic for any requests, and no such wait with clients that answer only what they were asked."
  },
  {
   "property": "C76",
   "status": "proved",
   "theorems": [
    "C76_disconnect_clears"
   ],
   "note": ""
  },
  {
   "property": "C77",
   "status": "proved",
   "theorems": [
    "C77_reaches_once",
    "C77_refused"
   ],
   "note": ""
  },
  {
   "property": "C78",
   "status": "proved",
   "theorems": [
    "C78_matched"
   ],
   "note": ""
  },
  {
   "property": "C79",
   "status": "partial",
   "theorems": [
    "C79_refuted",
    "C79_late_task_refuted",
    "C79_partial"
   ],
   "note": "Refuted: the end of a replaced session removes the account from the peer layer although its new session is connected, at once after a forced replacement (C79_refuted) or by a late clean-up task (C79_late_task_refuted). Proved when all older sessions are gone and cleaned up before the new one connects."
  },
  {
   "property": "C80",
   "status": "proved",
   "theorems": [
    "C80_prefix"
   ],
   "note": "Counters are unbounded: fewer than 2^64 - 1 events. Reads through both ordered channels (C08)."
  },
  {
   "property": "C81",
   "status": "partial",
   "theorems": [
    "C81_refuted",
    "C81_file_refuted",
    "C81_error_refuted",
    "C81_queue_refuted",
    "C81_drop_refuted",
    "C81_partial"
   ],
   "note": "False as stated: four separate refutations (peer file transfer stalls the channel for good, failed send leaves a gap, lost wake-up, background task drops a message). Proved for runs without these."
  },
  {
   "property": "C82",
   "status": "partial",
   "theorems": [
    "C82_refuted",
    "C82_partial",
    "C82_no_riders_partial"
   ],
   "note": "Refuted: messages that ride on a re-key packet are protected at the standard level. Proved for all others."
  },
  {
   "property": "C83",
   "status": "partial",
   "theorems": [
    "C83_refuted",
    "C83_named_partial",
    "C83_partial"
   ],
   "note": "Refuted: a message overtaken by a re-key of the other end leaves under the version of the next one. Proved: strictly increasing versions when nothing comes between the last check and the sending; named versions always strictly increasing."
  },
  {
   "property": "C84",
   "status": "partial",
   "theorems": [
    "C84_refuted",
    "C84_partial"
   ],
   "note": "Refuted: dropping the sending half ends the receiving half with messages unread. Proved while neither half is dropped."
  },
  {
   "property": "C85",
   "status": "partial",
   "theorems": [
    "C85_refuted",
    "C85_partial"
   ],
   "note": "False (C85_refuted): an old assignment delivered again takes a member back to the old secrets. Proved: delivering the newest again changes nothing."
  },
  {
   "property": "C86",
   "status": "partial",
   "theorems": [
    "C86_refuted",
    "C86_prefix_partial",
    "C86_partial"
   ],
   "note": "False of the code: C86_refuted. Proved: the first transfer of a session and files of one group arrive unchanged; otherwise what is reported is a beginning of the file, whose length is given."
  },
  {
   "property": "C87",
   "status": "partial",
   "theorems": [
    "C87_refuted",
    "C87_bound_partial",
    "C87_partial",
    "C87_declined"
   ],
   "note": "False of the code: C87_refuted (empty file; second file of a session). Proved: a bound on the number of steps of every transfer; first transfer of a session and files of one group end on both sides."
  },
  {
   "property": "C88",
   "status": "partial",
   "theorems": [
    "C88_refuted",
    "C88_partial"
   ],
   "note": "False of the code: C88_refuted. Proved for groups of one wave."
  },
  {
   "property": "C89",
   "status": "partial",
   "theorems": [
    "C89_refuted",
    "C89_partial"
   ],
   "note": "False of the code for every group size: C89_refuted. Proved for files stored as one group that fits into one group when sent back."
  },
  {
   "property": "C90",
   "status": "partial",
   "theorems": [
    "C90_refuted",
    "C90_partial",
    "C90_only_partial",
    "C90_size_partial"
   ],
   "note": "False of the code: C90_refuted. Proved: no crash with an honest receiver; only an acknowledgement for a group not being sent, and only the size zero, crash."
  },
  {
   "property": "C91",
   "status": "proved",
   "theorems": [
    "C91_virtual",
    "C91_transfer",
    "C91_separate"
   ],
   "note": ""
  },
  {
   "property": "C92",
   "status": "partial",
   "theorems": [
    "C92_refuted",
    "C92_partial",
    "C92_outside_partial"
   ],
   "note": "Refuted: REVFS_PULL and REVFS_DELETE use the account number of the packet header, storing uses the one in the metadata of the sender; neither is compared with the session, so one account can read, overwrite and delete the virtual files of another. Proved for requests that name the session's own account; in any case nothing outside the directory of the named account changes, apart from directories made on the way."
  },
  {
   "property": "C93",
   "status": "partial",
   "theorems": [
    "C93_refuted",
    "C93_partial"
   ],
   "note": "Refuted: the metadata of a file are stored next to it under the name with .vxe appended, so that storing /a.vxe destroys the metadata of /a. Proved for names without parts that end in .vxe, none of them a directory of another."
  },
  {
   "property": "C94",
   "status": "partial",
   "theorems": [
    "C94_refuted",
    "C94_partial",
    "C94_once_partial",
    "C94_declined"
   ],
   "note": "Refuted: a file header that declares a local encryption level is taken for the answer to a pull and accepted without asking, though no pull was made. Proved for headers that declare none; what was declined is not opened unless offered again."
  },
  {
   "property": "C95",
   "status": "proved",
   "theorems": [
    "C95_one_winner",
    "C95_global_failure",
    "C95_net_select"
   ],
   "note": ""
  },
  {
   "property": "C96",
   "status": "proved",
   "theorems": [
    "C96_select",
    "C96_join",
    "C96_select_waits",
    "C96_join_waits"
   ],
   "note": ""
  },
  {
   "property": "C97",
   "status": "partial",
   "theorems": [
    "C97_refuted",
    "C97_partial"
   ],
   "note": "Refuted: the initiator wins if its future is ready before the message of the other node arrives, even if the other future was first. Proved: the initiator wins whenever its future has succeeded by the end, the other node exactly if it succeeded and the initiator had not."
  },
  {
   "property": "C98",
   "status": "partial",
   "theorems": [
    "C98_refuted",
    "C98_partial"
   ],
   "note": "Refuted: a winner is always told false, also if the other future succeeded too. Proved: at a node without a result the flag is exact, and it always tells whether the other node holds the result."
  },
  {
   "property": "C99",
   "status": "partial",
   "theorems": [
    "C99_refuted",
    "C99_partial",
    "C99_net_join"
   ],
   "note": "Refuted: when the future of one node fails, the other node still gets Some(Ok(..)) if its own future was ready. Proved: each node gets exactly the result of its own future, and unless both succeeded the failing node sees its error; the NetJoin half is proved."
  },
  {
   "property": "C100",
   "status": "proved",
   "theorems": [
    "C100_in_order",
    "C100_complete"
   ],
   "note": "Runs without cancelled openings; with them see C101."
  },
  {
   "property": "C101",
   "status": "partial",
   "theorems": [
    "C101_refuted"
   ],
   "note": "Refuted: the receiver gives up subscription 33 after it has announced it and opens 34; the initiator, which is behind, answers for 33, the receiver takes that for the answer to 34 (another number is only logged) and what it sends on 34 is thrown away at the initiator, though both sides end up with subscription 34. The comment of catch_up_to says that the skipped ids are dead and that catching up keeps both sides paired. Without cancelled openings see C100."
  },
  {
   "property": "C102",
   "status": "proved",
   "theorems": [
    "C102_paired"
   ],
   "note": ""
  },
  {
   "property": "C103",
   "status": "partial",
   "theorems": [
    "C103_refuted",
    "C103_partial",
    "C103_finite"
   ],
   "note": "Refuted: PostActionChannel::recv keeps the mutex around the receivers while it waits for the signal of the peer; a receiver that has dropped one subscription which the peer keeps can never open a 33rd one. Partial: if every subscription that one user has dropped is dropped by the other one too. C103_finite needs no such condition."
  },
  {
   "property": "C104",
   "status": "partial",
   "theorems": [
    "C104_refuted",
    "C104_partial",
    "C104_only_dropped"
   ],
   "note": "Refuted for the same reason as C103: the close sequence of one subscription waits behind that of another which the peer keeps. Partial under the condition of C103; C104_only_dropped is the unconditional converse."
  },
  {
   "property": "C105",
   "status": "partial",
   "theorems": [
    "C105_partial",
    "C105_one_kind",
    "C105_refuted",
    "C105_two_writers_refuted"
   ],
   "note": "False in general: a writer that loses to a reader keeps a read lock inside its write guard and leaves it in the local store, so its node still reads while the other writes (C105_refuted, equal clocks); with differing clocks both may write (C105_two_writers_refuted). Proved when no request loses to a simultaneous request of the other kind (C105_partial), in particular when all calls are of one kind (C105_one_kind)."
  },
  {
   "property": "C106",
   "status": "partial",
   "theorems": [
    "C106_partial",
    "C106_held_partial",
    "C106_refuted"
   ],
   "note": "False in general (C106_refuted, by the same run). Proved for handed-out and held guards when no request loses to one of the other kind."
  },
  {
   "property": "C107",
   "status": "partial",
   "theorems": [
    "C107_refuted",
    "C107_lost_write_refuted",
    "C107_partial"
   ],
   "note": "False: two overlapping reads, one served from the store, leave the drop code waiting for ever (C107_refuted); with a write in between the written value is lost as well (C107_lost_write_refuted). Proved: a lone request with the other node listening is granted."
  },
  {
   "property": "C108",
   "status": "partial",
   "theorems": [
    "C108_partial",
    "C108_refuted"
   ],
   "note": "False: a read guard around a write lock panics when dropped, a write guard around a read lock when written through (C108_refuted). Proved when no request loses to one of the other kind."
  },
  {
   "property": "C109",
   "status": "partial",
   "theorems": [
    "C109_refuted",
    "C109_partial"
   ],
   "note": "False: the winner releases to the yielding loser, which acknowledges and then waits for a packet that never comes (C109_refuted). Proved: the loser is served by the next request of the other node with a later time."
  },
  {
   "property": "C110",
   "status": "proved",
   "theorems": [
    "C110_order",
    "C110_routing"
   ],
   "note": ""
  },
  {
   "property": "C111",
   "status": "proved",
   "theorems": [
    "C111_stream"
   ],
   "note": ""
  },
  {
   "property": "C112",
   "status": "partial",
   "theorems": [
    "C112_refuted",
    "C112_partial",
    "C112_answered"
   ],
   "note": "Refuted for every call that names a session (all but register and connect by user name): send_error (node.rs:405-424) reports the failure with cid_opt None, and search_for_value skips a subscription that names a session when the result names none; the error goes to on_node_event_received and the call waits forever, in every continuation in which the protocol itself produces nothing for that ticket. The disconnect of an unknown session is answered properly. Proved for register and connect by user name."
  },
  {
   "property": "C113",
   "status": "partial",
   "theorems": [
    "C113_refuted",
    "C113_partial"
   ],
   "note": "Refuted for rekey() and create_group(), which look only for their own result and skip errors; proved for all other calls."
  },
  {
   "property": "C114",
   "status": "partial",
   "theorems": [
    "C114_refuted",
    "C114_partial"
   ],
   "note": "Refuted: the notifier stays in the map that the subscription itself keeps alive, so neither an item nor the end of the stream arrives; proved: a stream ends when its subscription is dropped."
  },
  {
   "property": "C115",
   "status": "partial",
   "theorems": [
    "C115_refuted",
    "C115_partial"
   ],
   "note": "Refuted for a key in use: HashMap::insert replaces the notifier before the error is returned, and the existing stream ends. This needs a ticket drawn twice (random, 122 bits). Proved for tickets that differ."
  },
  {
   "property": "C116",
   "status": "partial",
   "theorems": [
    "C116_refuted",
    "C116_partial"
   ],
   "note": "Refuted for every limit n > 0: n busy handlers stop all dispatch, so handlers that wait for the answer to a request of their own deadlock; proved without limit (the default), and for the limit 0, which means none."
  },
  {
   "property": "C117",
   "status": "partial",
   "theorems": [
    "C117_refuted",
    "C117_interrupted_refuted",
    "C117_partial"
   ],
   "note": "Refuted: run_server_with_kernel selects between the kernel and the node's future, and returns when the node has ended, before on_stop was called or while it runs; proved for runs in which the kernel's future is first."
  },
  {
   "property": "C118",
   "status": "partial",
   "theorems": [
    "C118_refuted",
    "C118_clean_refuted",
    "C118_partial"
   ],
   "note": "Refuted twice: the shutdown the executor itself requests ends the node first, or a clean stop is taken first; proved once the loop has returned the error and the kernel's future is first."
  },
  {
   "property": "C119",
   "status": "partial",
   "theorems": [
    "C119_refuted",
    "C119_partial"
   ],
   "note": "refuted: a session logged in to one account deletes another by naming it in the header; partial: what holds is that the session is logged in to some account"
  },
  {
   "property": "C120",
   "status": "partial",
   "theorems": [
    "C120_refuted",
    "C120_partial"
   ],
   "note": "refuted: a DEREGISTER SUCCESS packet of the server, without a request, deletes the account it names; partial: such a packet comes under the session key"
  },
  {
   "property": "C121",
   "status": "partial",
   "theorems": [
    "C121_refuted",
    "C121_partial"
   ],
   "note": "refuted: the client reports success whatever the outcome of the deletion; partial: true for the side that serves the request"
  },
  {
   "property": "C122",
   "status": "proved",
   "theorems": [
    "C122_login_entitled",
    "C122_connected"
   ],
   "note": "proved for all histories of a server; C122_connected adds that keys are in use only after a login"
  },
  {
   "property": "C123",
   "status": "proved",
   "theorems": [
    "C123_at_most_one_login"
   ],
   "note": "proved for every session, server or client"
  },
  {
   "property": "C124",
   "status": "partial",
   "theorems": [
    "C124_refuted",
    "C124_partial"
   ],
   "note": "refuted: a server without transient accounts refuses with a FAILURE packet that the client drops, and the closed stream is no error; partial: only a stream closed without error leaves an attempt unanswered"
  },
  {
   "property": "C125",
   "status": "partial",
   "theorems": [
    "C125_refuted",
    "C125_ticket_refuted",
    "C125_partial",
    "C125_at_most_one"
   ],
   "note": "refuted: a FAILURE packet of the logged-in client, or a ticket used by an earlier session, silences the disconnect; partial: exactly one without these; at most one is proved for every session"
  },
  {
   "property": "C126",
   "status": "partial",
   "theorems": [
    "C126_refuted",
    "C126_partial"
   ],
   "note": "refuted: a SYN suffices for a Disconnect; partial: the device key of the account was shown"
  },
  {
   "property": "C127",
   "status": "partial",
   "theorems": [
    "C127_refuted",
    "C127_partial"
   ],
   "note": "refuted: the channel bears the number in the header of the STAGE0 packet; partial: true if all packets of the session name the account"
  },
  {
   "property": "C128",
   "status": "partial",
   "theorems": [
    "C128_refuted",
    "C128_partial"
   ],
   "note": "refuted: after a re-key the number is that of the first packet of the registration; partial: true if registrations named the account of their user"
  },
  {
   "property": "C129",
   "status": "partial",
   "theorems": [
    "C129_refuted",
    "C129_partial"
   ],
   "note": "refuted: a transient registration whose session ends before the SYN leaves its account behind; partial: otherwise it is removed"
  },
  {
   "property": "C130",
   "status": "partial",
   "theorems": [
    "C130_refuted",
    "C130_partial"
   ],
   "note": "refuted: registering a user name at a second server replaces the account of the first at the client; partial: no server session changes an account, a client session only one with the proposed user name"
  },
  {
   "property": "C131",
   "status": "partial",
   "theorems": [
    "C131_refuted",
    "C131_partial"
   ],
   "note": "refuted: the server may register an account at the client by playing the client; partial: which packets this takes, and that such an account was not there before"
  },
  {
   "property": "C132",
   "status": "proved",
   "theorems": [
    "C132_only_under_session_key"
   ],
   "note": "proved for all node states and packets"
  },
  {
   "property": "C133",
   "status": "proved",
   "theorems": [
    "C133_login_completes",
    "C133_refused"
   ],
   "note": "proved for two nodes that follow the protocol, for all accounts, keys, tickets; C133_refused covers wrong credentials"
  },
  {
   "property": "C134",
   "status": "partial",
   "theorems": [
    "C134_refuted",
    "C134_partial"
   ],
   "note": "refuted: the server keeps the account when its answer is lost; partial: without loss both or neither, and the client is told"
  },
  {
   "property": "C135",
   "status": "partial",
   "theorems": [
    "C135_refuted",
    "C135_partial"
   ],
   "note": "refuted: after a FAILURE packet the entry stays; partial: server sessions without FAILURE and without deregistration"
  },
  {
   "property": "C136",
   "status": "partial",
   "theorems": [
    "C136_refuted",
    "C136_partial"
   ],
   "note": "refuted: a SYN of the server sets the ticket of a client session; partial: true if the server sends no SYN"
  },
  {
   "property": "C137",
   "status": "proved",
   "theorems": [
    "C137_stays_listed"
   ],
   "note": "proved for all events of all sessions"
  },
  {
   "property": "C138",
   "status": "partial",
   "theorems": [
    "C138_refuted",
    "C138_partial"
   ],
   "note": "False: refusing an invitation records an outgoing attempt and the password like accepting one does, so key-exchange signals after it open a channel. Partial: only if the user has spoken of that peer."
  },
  {
   "property": "C139",
   "status": "partial",
   "theorems": [
    "C139_ignored_refuted",
    "C139_accepted_refuted",
    "C139_partial"
   ],
   "note": "False: once the user has refused an invitation, the next one of that peer is swallowed (if the peer has the lower number) or accepted by the client itself. Partial: it is delivered if the user has said nothing about the peer since the last channel."
  },
  {
   "property": "C140",
   "status": "partial",
   "theorems": [
    "C140_refuted",
    "C140_partial"
   ],
   "note": "False: a key-exchange signal about a peer without a recorded password panics (expect: The PSK was not found!). Partial: this is the only way."
  },
  {
   "property": "C141",
   "status": "proved",
   "theorems": [
    "C141_kept"
   ],
   "note": ""
  },
  {
   "property": "C142",
   "status": "partial",
   "theorems": [
    "C142_refuted",
    "C142_partial"
   ],
   "note": "False: a remote handle's disconnect names no connection. Partial: a disconnect that names another connection has no effect."
  },
  {
   "property": "C143",
   "status": "partial",
   "theorems": [
    "C143_refuted",
    "C143_partial"
   ],
   "note": "False: the end of an old connection's stream forgets the new request. Partial: it holds while the request is not forgotten."
  },
  {
   "property": "C144",
   "status": "partial",
   "theorems": [
    "C144_refuted",
    "C144_partial"
   ],
   "note": "False: a Stage0 signal that arrives before the user's request fixes the keys with the empty password. Partial: it holds if the key exchange began after the request."
  },
  {
   "property": "C145",
   "status": "partial",
   "theorems": [
    "C145_other_refuted",
    "C145_unasked_refuted",
    "C145_partial"
   ],
   "note": "False both ways: signals about other accounts on the same machine, and acceptances of requests never made, change the lists. Partial: what changes can occur at all."
  },
  {
   "property": "C146",
   "status": "proved",
   "theorems": [
    "C146_latest",
    "C146_late"
   ],
   "note": ""
  },
  {
   "property": "C147",
   "status": "partial",
   "theorems": [
    "C147_refuted",
    "C147_partial"
   ],
   "note": "False: the refusal is delivered as signal and as failure. Partial: at least one report."
  },
  {
   "property": "C148",
   "status": "proved",
   "theorems": [
    "C148_accepted"
   ],
   "note": ""
  },
  {
   "property": "C149",
   "status": "proved",
   "theorems": [
    "C149_crossed"
   ],
   "note": ""
  },
  {
   "property": "C150",
   "status": "proved",
   "theorems": [
    "C150_detected"
   ],
   "note": ""
  },
  {
   "property": "C151",
   "status": "partial",
   "theorems": [
    "C151_refuted",
    "C151_partial"
   ],
   "note": "False when requests cross: the client with the lower number sends an acceptance the server has no request for and hands its error to the user. Partial: no error comes with an accepted request that is not crossed."
  },
  {
   "property": "C152",
   "status": "proved",
   "theorems": [
    "C152_fresh"
   ],
   "note": ""
  },
  {
   "property": "C153",
   "status": "partial",
   "theorems": [
    "C153_refuted",
    "C153_partial"
   ],
   "note": "False: a disconnect that names another connection than the latest returns Ok and nothing happens, so the caller waits. Partial: every other request is sent as it is, or, without a connection, a disconnect is answered."
  },
  {
   "property": "C154",
   "status": "partial",
   "theorems": [
    "C154_refuted",
    "C154_partial",
    "C154_traffic"
   ],
   "note": "False: keep-alives are 30 minutes apart at each node, so any timeout the user sets below that ends an idle session at the first check (15 minutes). Partial: not if the timeout is at least 2*(15 min + delay) and at least delay plus clock difference, or 0."
  },
  {
   "property": "C155",
   "status": "partial",
   "theorems": [
    "C155_refuted",
    "C155_late_refuted",
    "C155_ahead_refuted",
    "C155_partial"
   ],
   "note": "False: until the first keep-alive has come there is no timeout at all; a late keep-alive clears the last one; a stamp in the future postpones the end at will. Partial: after a keep-alive in time, the first check after the timeout and a minute without packets ends the session."
  },
  {
   "property": "C156",
   "status": "partial",
   "theorems": [
    "C156_refuted",
    "C156_short_refuted",
    "C156_partial"
   ],
   "note": "False: Duration::MAX becomes -1 s and ends an idle session at the first check; below a second becomes 0, that is off. Partial: exact for whole seconds up to 2^63 ns, otherwise rounded down."
  },
  {
   "property": "C157",
   "status": "proved",
   "theorems": [
    "C157_in_order"
   ],
   "note": ""
  },
  {
   "property": "C158",
   "status": "partial",
   "theorems": [
    "C158_refuted",
    "C158_partial"
   ],
   "note": "False: the closing task sends Halt and only then sets the flag; a value the kept sending half sends in between is reported as sent and lost. Partial: everything sent before the sender dropped its receiving half arrives."
  },
  {
   "property": "C159",
   "status": "partial",
   "theorems": [
    "C159_refuted",
    "C159_partial"
   ],
   "note": "False: both halves share the flag; after the closing task of the dropped receiving half has run, send_item fails though the other end receives. Partial: both ends can send as long as neither receiving half is dropped."
  },
  {
   "property": "C160",
   "status": "partial",
   "theorems": [
    "C160_refuted",
    "C160_partial",
    "C160_read_partial"
   ],
   "note": "False: if the second end is dropped before it has read the Halt of the first, both tasks send Halt and wait for ever for HaltVerified. Partial: they end when the second end has read the Halt before it is dropped."
  },
  {
   "property": "C161",
   "status": "proved",
   "theorems": [
    "C161_own_answer"
   ],
   "note": ""
  },
  {
   "property": "C162",
   "status": "proved",
   "theorems": [
    "C162_answered_once",
    "C162_no_response",
    "C162_first"
   ],
   "note": ""
  },
  {
   "property": "C163",
   "status": "partial",
   "theorems": [
    "C163_refuted",
    "C163_partial"
   ],
   "note": "False: the oneshot sender of a queued request stays in the table when the queue goes with the receiver, so its call never returns. Partial: calls not in the queue yet return an error and leave no slot."
  },
  {
   "property": "C164",
   "status": "partial",
   "theorems": [
    "C164_refuted",
    "C164_partial",
    "C164_bounded_partial"
   ],
   "note": "False: dropping the future of a call (a timeout) leaves its slot; if its request was not queued yet, for ever. Partial: exact when no call is dropped."
  },
  {
   "property": "C165",
   "status": "partial",
   "theorems": [
    "C165_refuted",
    "C165_partial",
    "C165_same_time_partial"
   ],
   "note": "False: the starts differ by the difference of the system clocks (the initiator compares its clock with a time of the receiver's). Partial: with clocks at the right speed they differ by at most the larger of the clock difference and what ACK took beyond SYN and SYN_ACK; with equal clocks and a quick ACK they are equal."
  },
  {
   "property": "C166",
   "status": "partial",
   "theorems": [
    "C166_refuted",
    "C166_partial",
    "C166_not_before_partial"
   ],
   "note": "False: if the receiver's clock is set back during the exchange, the round-trip time is negative and, as u64, some 584 years of sleep. Partial: with clocks that agree and run at the right speed the start is in time; with any clocks no node starts before it has heard from the other."
  },
  {
   "property": "C167",
   "status": "partial",
   "theorems": [
    "C167_refuted",
    "C167_bytes_partial",
    "C167_lockstep_partial"
   ],
   "note": "False: there is no framing; messages under way together come as one and long ones in parts. Partial: the bytes come in order and complete; one by one if each message is read before the next is sent and fits the buffer of 4096."
  },
  {
   "property": "C168",
   "status": "partial",
   "theorems": [
    "C168_refuted",
    "C168_wrapper_partial",
    "C168_first_part_partial"
   ],
   "note": "False of TcpStream: one try_write, whose partial result is Ok. Partial: true of StreamWrapper; of TcpStream a first part is passed on."
  },
  {
   "property": "C169",
   "status": "partial",
   "theorems": [
    "C169_refuted",
    "C169_first_partial"
   ],
   "note": "The end is false: at the end of the stream, and on any error, the loop goes on for ever. Partial: it returns p exactly if p is the first message that can be read and passes."
  },
  {
   "property": "C170",
   "status": "partial",
   "theorems": [
    "C170_refuted",
    "C170_partial",
    "C170_after_partial"
   ],
   "note": "False: recv holds the lock until a message comes, so two ends that both wait never send. Partial: an end that is not receiving sends at once, and one that is, after what it waits for has come."
  },
  {
   "property": "C171",
   "status": "proved",
   "theorems": [
    "C171_memory"
   ],
   "note": "For the memory backend, which the file backend keeps and saves."
  },
  {
   "property": "C172",
   "status": "partial",
   "theorems": [
    "C172_refuted",
    "C172_partial"
   ],
   "note": "False: set inserts a further row (the table has no key) and get selects one of the rows with LIMIT 1, without an order; with the oldest, a value set again is never seen, while get_all returns the newest. Partial: right for every choice as long as no key that has a value is set."
  },
  {
   "property": "C173",
   "status": "proved",
   "theorems": [
    "C173_memory",
    "C173_sql"
   ],
   "note": ""
  },
  {
   "property": "C174",
   "status": "partial",
   "theorems": [
    "C174_refuted",
    "C174_partial"
   ],
   "note": "False: for a session without an account the memory backend stores nothing and returns Ok(None). Partial: true if the account exists."
  },
  {
   "property": "C175",
   "status": "partial",
   "theorems": [
    "C175_refuted",
    "C175_refuted_for_good",
    "C175_partial"
   ],
   "note": "Refuted: internal_service.rs 113 asks the node of the server to shut down whenever one client's service or channel ends, which ends the sessions of all clients and lets no one connect again. Proved: other events of a client leave the others as they are."
  },
  {
   "property": "C176",
   "status": "partial",
   "theorems": [
    "C176_refuted",
    "C176_partial"
   ],
   "note": "Refuted: select! drops the forwarding task when the service returns, with what is queued; poll_flush and poll_shutdown do not wait for it. Proved: all is sent if the queue is empty by then."
  },
  {
   "property": "C177",
   "status": "proved",
   "theorems": [
    "C177_own_data",
    "C177_of_this_client",
    "C177_taken",
    "C177_drained"
   ],
   "note": "Runs are of the model; a send to the client is taken to succeed."
  }
 ]
}