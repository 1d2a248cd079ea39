{
 "claims": [
  {
   "property": "C01",
   "status": "proved",
   "theorems": [
    "C01_message_round_trip"
   ],
   "note": "all message kinds but the ECDH reply (C06)"
  },
  {
   "property": "C02",
   "status": "proved",
   "theorems": [
    "C02_parser_is_grammar",
    "C02_unambiguous"
   ],
   "note": ""
  },
  {
   "property": "C03",
   "status": "proved",
   "theorems": [
    "C03_parsing_never_panics"
   ],
   "note": ""
  },
  {
   "property": "C04",
   "status": "proved",
   "theorems": [
    "C04_serialise_writes_rfc_bytes"
   ],
   "note": ""
  },
  {
   "property": "C05",
   "status": "proved",
   "theorems": [
    "C05_reencode"
   ],
   "note": ""
  },
  {
   "property": "C06",
   "status": "partial",
   "theorems": [
    "C06_ecdh_reply_round_trip_refuted",
    "C06_every_reply_refuted",
    "C06_no_reply_is_parsed"
   ],
   "note": "REFUTED: ecdh.rs Key::parse tests the unconsumed input for emptiness, so no byte string is ever parsed as an ECDH reply"
  },
  {
   "property": "C07",
   "status": "proved",
   "theorems": [
    "C07_framing_is_tight"
   ],
   "note": ""
  },
  {
   "property": "C08",
   "status": "proved",
   "theorems": [
    "C08_message_numbers"
   ],
   "note": ""
  },
  {
   "property": "C09",
   "status": "proved",
   "theorems": [
    "C09_session_grammar",
    "C09_session_written",
    "C09_session_round_trip"
   ],
   "note": ""
  },
  {
   "property": "C10",
   "status": "proved",
   "theorems": [
    "C10_signal_names"
   ],
   "note": ""
  },
  {
   "property": "C100",
   "status": "proved",
   "theorems": [
    "C100_adds_nothing",
    "C100_adds_no_panic",
    "C100_loses_nothing",
    "C100_loses_no_panic"
   ],
   "note": "Login.v models logins and Server::start await by await."
  },
  {
   "property": "C101",
   "status": "proved",
   "theorems": [
    "C101_crypto_assumption",
    "C101_host_assumption",
    "C101_block_size",
    "C101_poly1305_is_a_polynomial"
   ],
   "note": "Published test vectors of ChaCha20, Poly1305 and SHA-256 are checked as examples. Prim.v defines the primitives after their publications; that the crates compute them is trusted."
  },
  {
   "property": "C102",
   "status": "partial",
   "theorems": [
    "C102_both_sides_contribute_refuted",
    "C102_small_order_values"
   ],
   "note": "REFUTED for every host with the published X25519 and SHA-256: a client that sends one of five values (in any encoding) completes the handshake with shared secret 0 whatever the server's secret, so the keys follow from what is sent in the clear. Prim.v defines the primitives after their publications; that the crates compute them is trusted."
  },
  {
   "property": "C103",
   "status": "proved",
   "theorems": [
    "C103_forged_packets",
    "C103_genuine_packets"
   ],
   "note": "The primality of 2^130-5 is proved. The keystream is arbitrary: keys are counted, not assumed random. Prim.v defines the primitives after their publications; that the crates compute them is trusted."
  },
  {
   "property": "C104",
   "status": "proved",
   "theorems": [
    "C104_counters_agree",
    "C104_sending",
    "C104_receiving"
   ],
   "note": "Prim.v defines the primitives after their publications; that the crates compute them is trusted."
  },
  {
   "property": "C105",
   "status": "proved",
   "theorems": [
    "C105_x25519_agrees",
    "C105_same_keys",
    "C105_then_talk"
   ],
   "note": "The group law of the curve, the correctness of the ladder and the primality of 2^255-19 are proved, nothing about the curve is assumed. Prim.v defines the primitives after their publications; that the crates compute them is trusted."
  },
  {
   "property": "C106",
   "status": "proved",
   "theorems": [
    "C106_secret_not_zero",
    "C106_server_contributes"
   ],
   "note": "The positive side of C102. The primality of the order of the base point is proved. Prim.v defines the primitives after their publications; that the crates compute them is trusted."
  },
  {
   "property": "C107",
   "status": "proved",
   "theorems": [
    "C107_signature_accepted",
    "C107_login"
   ],
   "note": "That Ed25519 is correct is proved, not assumed. Names of users and services have up to 700 bytes together. Sig.v defines SHA-512 and Ed25519 after FIPS 180-4 and RFC 8032; that the crates compute them is trusted."
  },
  {
   "property": "C108",
   "status": "partial",
   "theorems": [
    "C108_login_takes_a_secret_refuted",
    "C108_login_takes_a_secret_partial"
   ],
   "note": "REFUTED for every host: with the encoding of the neutral point as its key and a fixed signature anyone is admitted as any user in every session. The partial theorem: with a key made from a seed, one signature for two sessions or users is a collision of SHA-512 modulo the order, of two named strings. Sig.v defines SHA-512 and Ed25519 after FIPS 180-4 and RFC 8032; that the crates compute them is trusted."
  },
  {
   "property": "C109",
   "status": "proved",
   "theorems": [
    "C109_second_half_determined"
   ],
   "note": "Sig.v defines SHA-512 and Ed25519 after FIPS 180-4 and RFC 8032; that the crates compute them is trusted."
  },
  {
   "property": "C11",
   "status": "proved",
   "theorems": [
    "C11_name_lists"
   ],
   "note": ""
  },
  {
   "property": "C110",
   "status": "partial",
   "theorems": [
    "C110_failure_reported_refuted",
    "C110_failure_in_directory_refuted",
    "C110_failure_told_refuted",
    "C110_failure_reported_partial",
    "C110_status_partial"
   ],
   "note": "REFUTED for every file that breaks off: the status is 0, the output is acknowledgements only, and the example server tells the client status 0. The partial theorems: the number of acknowledgements is complete exactly when the transfer succeeded; only a panic gives another status."
  },
  {
   "property": "C111",
   "status": "partial",
   "theorems": [
    "C111_acceptable_key_usable_refuted",
    "C111_no_key_acceptable_refuted",
    "C111_acceptable_key_usable_partial"
   ],
   "note": "REFUTED for every string that is no ed25519 key, such as one that does not have 32 bytes: it is called acceptable at every query and refused at every attempt, in every connection. The partial theorem: keys of other algorithms are never called acceptable. Sig.v defines SHA-512 and Ed25519 after FIPS 180-4 and RFC 8032; that the crates compute them is trusted."
  },
  {
   "property": "C112",
   "status": "partial",
   "theorems": [
    "C112_any_target_refuted",
    "C112_any_target_partial"
   ],
   "note": "REFUTED: no command and no input of a client make the transfer program create a file with a space in its path; the example server splits commands at white space without quotes, and names in headers end at a space. The partial theorem: at every path without white space that is no option a file can be stored."
  },
  {
   "property": "C12",
   "status": "proved",
   "theorems": [
    "C12_mpint_canonical",
    "C12_mpint_unique"
   ],
   "note": ""
  },
  {
   "property": "C13",
   "status": "proved",
   "theorems": [
    "C13_string_splitting"
   ],
   "note": ""
  },
  {
   "property": "C14",
   "status": "proved",
   "theorems": [
    "C14_wrap_builds_a_packet"
   ],
   "note": ""
  },
  {
   "property": "C15",
   "status": "proved",
   "theorems": [
    "C15_wrap_raw_accepts_wrapped",
    "C15_wrap_raw_accepts_rfc_packets"
   ],
   "note": ""
  },
  {
   "property": "C16",
   "status": "proved",
   "theorems": [
    "C16_wrap_raw_guards",
    "C16_wrap_raw_rejects"
   ],
   "note": ""
  },
  {
   "property": "C17",
   "status": "proved",
   "theorems": [
    "C17_wrap_panics_exactly_without_room",
    "C17_least_padding_exists"
   ],
   "note": ""
  },
  {
   "property": "C18",
   "status": "partial",
   "theorems": [
    "C18_reading_never_panics_refuted",
    "C18_every_buffer_refuted",
    "C18_panicking_inputs_partial"
   ],
   "note": "REFUTED: a packet length that leaves fewer than the length field's own bytes panics in packet::parse; the second theorem says exactly which streams panic."
  },
  {
   "property": "C19",
   "status": "proved",
   "theorems": [
    "C19_packets_survive_the_stream",
    "C19_rfc_packets"
   ],
   "note": ""
  },
  {
   "property": "C20",
   "status": "proved",
   "theorems": [
    "C20_send_seals_one_packet",
    "C20_channel_delivers_in_order"
   ],
   "note": ""
  },
  {
   "property": "C21",
   "status": "proved",
   "theorems": [
    "C21_no_keystream_byte_twice",
    "C21_draws_are_complete"
   ],
   "note": ""
  },
  {
   "property": "C22",
   "status": "proved",
   "theorems": [
    "C22_released_only_if_authentic",
    "C22_received_iff_sealed",
    "C22_forgery_is_rejected"
   ],
   "note": "Authenticity is relative to the tag function, which is a parameter."
  },
  {
   "property": "C23",
   "status": "proved",
   "theorems": [
    "C23_receiving_never_panics"
   ],
   "note": ""
  },
  {
   "property": "C24",
   "status": "proved",
   "theorems": [
    "C24_reads_do_not_depend_on_pieces",
    "C24_receiver_does_not_depend_on_pieces"
   ],
   "note": ""
  },
  {
   "property": "C25",
   "status": "partial",
   "theorems": [
    "C25_survives_child_output_refuted",
    "C25_every_frame_refuted",
    "C25_survives_child_output_partial"
   ],
   "note": "REFUTED: child output arriving in the middle of a packet makes select! drop the half-read packet; harmless between packets."
  },
  {
   "property": "C26",
   "status": "partial",
   "theorems": [
    "C26_short_padding_rejected_refuted"
   ],
   "note": "REFUTED: packets with fewer than four bytes of padding are accepted."
  },
  {
   "property": "C27",
   "status": "proved",
   "theorems": [
    "C27_key_derivation",
    "C27_more_blocks_extend",
    "C27_purposes_are_separated"
   ],
   "note": "The hash is an arbitrary function with 32 bytes of output."
  },
  {
   "property": "C28",
   "status": "proved",
   "theorems": [
    "C28_exchange_hash_input",
    "C28_exchange_hash_binds"
   ],
   "note": ""
  },
  {
   "property": "C29",
   "status": "proved",
   "theorems": [
    "C29_handshake_sound",
    "C29_handshake_complete"
   ],
   "note": "Diffie-Hellman, signature, hash and random source are parameters; writes are assumed to succeed; C83 says what happens when they do not."
  },
  {
   "property": "C30",
   "status": "proved",
   "theorems": [
    "C30_negotiation",
    "C30_nothing_signed_before"
   ],
   "note": ""
  },
  {
   "property": "C31",
   "status": "partial",
   "theorems": [
    "C31_survives_hostile_clients_refuted",
    "C31_panics_exactly_partial",
    "C31_panics_only_partial"
   ],
   "note": "REFUTED: before authentication a client can panic the server with a packet length above the limit, a malformed or wrong second message, or an unparsable third. The partial theorems say these are the only ways."
  },
  {
   "property": "C32",
   "status": "proved",
   "theorems": [
    "C32_sequence_numbers"
   ],
   "note": ""
  },
  {
   "property": "C33",
   "status": "partial",
   "theorems": [
    "C33_cookie_is_fresh_refuted"
   ],
   "note": "REFUTED: the cookie is the constant nomnommunchmunch."
  },
  {
   "property": "C34",
   "status": "proved",
   "theorems": [
    "C34_identifier_round_trip"
   ],
   "note": ""
  },
  {
   "property": "C35",
   "status": "partial",
   "theorems": [
    "C35_preceding_lines_are_skipped_refuted",
    "C35_every_identifier_refuted",
    "C35_preceding_lines_are_skipped_partial",
    "C35_preceding_lines_exact_partial"
   ],
   "note": "REFUTED: an empty line or a line S loses every identification; SSSH- is taken for SSH-. The partial theorems cover every other CR-free line, and say exactly which sequences of CR-free lines do no harm."
  },
  {
   "property": "C36",
   "status": "proved",
   "theorems": [
    "C36_identifier_parsing_is_safe"
   ],
   "note": ""
  },
  {
   "property": "C37",
   "status": "proved",
   "theorems": [
    "C37_sign_data",
    "C37_sign_data_binds"
   ],
   "note": ""
  },
  {
   "property": "C38",
   "status": "proved",
   "theorems": [
    "C38_no_session_without_authentication",
    "C38_no_success_without_session",
    "C38_connection_story"
   ],
   "note": "The handlers, cryptography and random sources are parameters; writes are assumed to succeed; C83 says what happens when they do not."
  },
  {
   "property": "C39",
   "status": "proved",
   "theorems": [
    "C39_public_key_bound_to_session"
   ],
   "note": ""
  },
  {
   "property": "C40",
   "status": "proved",
   "theorems": [
    "C40_one_reply_per_request"
   ],
   "note": ""
  },
  {
   "property": "C41",
   "status": "partial",
   "theorems": [
    "C41_preauth_no_panic_refuted",
    "C41_no_service_panics_refuted",
    "C41_preauth_no_panic_partial"
   ],
   "note": "REFUTED for every server: after the handshake, disconnecting (or anything but a request for ssh-userauth) panics; so do other messages, unimplemented methods, long keys. The partial theorem says these are the only ways."
  },
  {
   "property": "C42",
   "status": "proved",
   "theorems": [
    "C42_queries_never_authenticate"
   ],
   "note": ""
  },
  {
   "property": "C43",
   "status": "proved",
   "theorems": [
    "C43_insert",
    "C43_get",
    "C43_update",
    "C43_remove"
   ],
   "note": ""
  },
  {
   "property": "C44",
   "status": "proved",
   "theorems": [
    "C44_open",
    "C44_no_other_confirmation",
    "C44_channels_were_opened"
   ],
   "note": "The handlers, cryptography, random source and schedule are parameters; a packet is handled as a whole; writes to the client succeed (C83 if not)."
  },
  {
   "property": "C45",
   "status": "proved",
   "theorems": [
    "C45_requests",
    "C45_request_unique",
    "C45_no_other_success",
    "C45_no_other_failure"
   ],
   "note": "The handlers, cryptography, random source and schedule are parameters; a packet is handled as a whole; writes to the client succeed (C83 if not)."
  },
  {
   "property": "C46",
   "status": "proved",
   "theorems": [
    "C46_stdin_exact",
    "C46_stdin_source"
   ],
   "note": "The handlers, cryptography, random source and schedule are parameters; a packet is handled as a whole; writes to the client succeed (C83 if not)."
  },
  {
   "property": "C47",
   "status": "proved",
   "theorems": [
    "C47_output_delivered",
    "C47_end_delivered",
    "C47_channel_data",
    "C47_no_other_data",
    "C47_no_other_end"
   ],
   "note": "The handlers, cryptography, random source and schedule are parameters; a packet is handled as a whole; writes to the client succeed (C83 if not)."
  },
  {
   "property": "C48",
   "status": "partial",
   "theorems": [
    "C48_nothing_after_close_refuted",
    "C48_data_after_close_refuted",
    "C48_data_after_closed_refuted",
    "C48_nothing_after_close_partial"
   ],
   "note": "REFUTED in every session with a child that has both streams: stderr and other children still send data after CLOSE, and a CLOSE from the client stops nothing. The partial theorem: data after a CLOSE is not from the stdout that ended."
  },
  {
   "property": "C49",
   "status": "partial",
   "theorems": [
    "C49_flow_control_refuted",
    "C49_no_limit_refuted",
    "C49_flow_control_partial"
   ],
   "note": "REFUTED in every session with a child: while the client is silent it is sent any amount of data, whatever window it granted. The partial theorem bounds each piece by 256 bytes."
  },
  {
   "property": "C50",
   "status": "partial",
   "theorems": [
    "C50_stdin_complete_refuted",
    "C50_short_write_lost_refuted",
    "C50_stdin_complete_partial",
    "C50_data_offered_partial"
   ],
   "note": "REFUTED: write is used where write_all is needed, so every short write loses the rest, whatever follows. The partial theorems: all data is offered whole, and arrives if every write takes all."
  },
  {
   "property": "C51",
   "status": "proved",
   "theorems": [
    "C51_messages_fit",
    "C51_no_panic_in_sending"
   ],
   "note": "The handlers, cryptography, random source and schedule are parameters; a packet is handled as a whole; writes to the client succeed (C83 if not)."
  },
  {
   "property": "C52",
   "status": "partial",
   "theorems": [
    "C52_client_cannot_crash_refuted",
    "C52_any_session_refuted",
    "C52_one_packet_refuted",
    "C52_always_crashes_refuted",
    "C52_client_cannot_crash_partial"
   ],
   "note": "REFUTED: for every server, at any time, one packet is enough. The partial theorem lists all ways."
  },
  {
   "property": "C53",
   "status": "partial",
   "theorems": [
    "C53_exit_status_refuted",
    "C53_status_after_close_refuted",
    "C53_no_output_no_status_refuted",
    "C53_exit_status_partial",
    "C53_no_other_status_partial"
   ],
   "note": "REFUTED in every session with a child: the status follows CLOSE if the child exits after its output ended, and a child without output is never waited for. The partial theorems: an exit that is noticed is reported at once, to the right channel, once."
  },
  {
   "property": "C54",
   "status": "partial",
   "theorems": [
    "C54_stderr_extended_refuted",
    "C54_stderr_as_data_refuted",
    "C54_never_extended_refuted",
    "C54_stderr_delivered_partial"
   ],
   "note": "REFUTED in every session with a child that has stderr: stderr is sent as ordinary data; extended data is never sent. The partial theorem: stderr reaches the right channel."
  },
  {
   "property": "C55",
   "status": "proved",
   "theorems": [
    "C55_at_most_one_guard",
    "C55_poll"
   ],
   "note": ""
  },
  {
   "property": "C56",
   "status": "partial",
   "theorems": [
    "C56_waiters_are_woken_refuted",
    "C56_cancelled_waiter_refuted",
    "C56_starvation_refuted",
    "C56_every_wait_refuted",
    "C56_waiters_are_woken_partial"
   ],
   "note": "REFUTED: a woken task that finds the mutex taken again is never woken again; a woken task that is dropped does not pass the wakeup on; waiters are woken last first, so one can starve; from every state with a holder, a waiter and a third task all waiters can be made to wait for ever. The partial theorem: if neither happens, a free mutex with waiters always has one scheduled."
  },
  {
   "property": "C57",
   "status": "proved",
   "theorems": [
    "C57_received_to_paths",
    "C57_received_to_directory",
    "C57_interrupted_to_paths",
    "C57_interrupted_to_directory",
    "C57_all_sent_is_received"
   ],
   "note": "The world (file system, standard output) is a parameter deciding which operations succeed."
  },
  {
   "property": "C58",
   "status": "partial",
   "theorems": [
    "C58_round_trip_refuted",
    "C58_round_trip_partial"
   ],
   "note": "REFUTED for every file: the size announced is always 42 and the final zero byte is missing. The partial theorem: a file of 42 bytes is stored, yet reported as failed."
  },
  {
   "property": "C59",
   "status": "partial",
   "theorems": [
    "C59_any_path_refuted",
    "C59_stays_inside_refuted",
    "C59_stays_inside_partial"
   ],
   "note": "REFUTED: names with .. or absolute names are used as they are. The partial theorem: only names from headers are created, and names without .. stay inside."
  },
  {
   "property": "C60",
   "status": "partial",
   "theorems": [
    "C60_name_kept_refuted",
    "C60_name_kept_partial"
   ],
   "note": "REFUTED: every name with a space is cut. The partial theorem: every other name is kept."
  },
  {
   "property": "C61",
   "status": "proved",
   "theorems": [
    "C61_exec_words",
    "C61_words_are_started"
   ],
   "note": "The operating system (SHELL, which commands start) and ed25519 are parameters. A blank command panics, see C72."
  },
  {
   "property": "C62",
   "status": "partial",
   "theorems": [
    "C62_authorised_keys_refuted",
    "C62_authorised_keys_partial"
   ],
   "note": "REFUTED: whoever owns any ed25519 key enters as any user, on every server. The partial theorem: the client has sent a signature valid under the key it presented, over this session's data for that user."
  },
  {
   "property": "C63",
   "status": "partial",
   "theorems": [
    "C63_keeps_serving_refuted",
    "C63_isolated_partial",
    "C63_dies_of_one_partial",
    "C63_goes_on_partial"
   ],
   "note": "REFUTED: of every server in every state one new client, not authenticated, ends all connections with a panic (all clients share one task). The partial theorems: as long as no client panics each connection is exactly as if it were alone, the server dies only of a panic of one connection, and it can always go on."
  },
  {
   "property": "C64",
   "status": "proved",
   "theorems": [
    "C64_utf8_fields"
   ],
   "note": ""
  },
  {
   "property": "C65",
   "status": "partial",
   "theorems": [
    "C65_zero_secret_is_refused_refuted"
   ],
   "note": "REFUTED: an all-zero shared secret is used like any other."
  },
  {
   "property": "C66",
   "status": "partial",
   "theorems": [
    "C66_counter_wraps_refuted",
    "C66_counter_below_wrap_partial"
   ],
   "note": "REFUTED: the counter has 64 bits; after 2^32 packets the nonce differs from that of a uint32 counter. The partial theorem: up to there it is the same."
  },
  {
   "property": "C67",
   "status": "proved",
   "theorems": [
    "C67_good_client_admitted"
   ],
   "note": ""
  },
  {
   "property": "C68",
   "status": "proved",
   "theorems": [
    "C68_session",
    "C68_packet_handled"
   ],
   "note": "The handlers, cryptography, random source and schedule are parameters; a packet is handled as a whole; writes to the client succeed (C83 if not)."
  },
  {
   "property": "C69",
   "status": "proved",
   "theorems": [
    "C69_sent_because",
    "C69_spawned_because"
   ],
   "note": "The handlers, cryptography, random source and schedule are parameters; a packet is handled as a whole; writes to the client succeed (C83 if not)."
  },
  {
   "property": "C70",
   "status": "partial",
   "theorems": [
    "C70_receiver_survives_refuted",
    "C70_receiver_survives_partial"
   ],
   "note": "REFUTED: a D (directory) header reaches todo!(). The partial theorem: nothing else panics."
  },
  {
   "property": "C71",
   "status": "proved",
   "theorems": [
    "C71_options",
    "C71_other_options_refused"
   ],
   "note": "Arguments are byte strings; the usage message and the client mode are not modelled."
  },
  {
   "property": "C72",
   "status": "partial",
   "theorems": [
    "C72_bad_command_refused_refuted",
    "C72_bad_command_refused_partial"
   ],
   "note": "REFUTED: in every session with a channel one more packet with such a command panics the server. The partial theorem: exactly such commands do."
  },
  {
   "property": "C73",
   "status": "partial",
   "theorems": [
    "C73_killed_reported_refuted",
    "C73_no_signal_sent_refuted",
    "C73_killed_reported_partial"
   ],
   "note": "REFUTED: a killed child is always reported with status 0; exit-signal is never sent. The partial theorem: exit codes are reported as they are."
  },
  {
   "property": "C74",
   "status": "proved",
   "theorems": [
    "C74_whole_connection",
    "C74_sessions"
   ],
   "note": ""
  },
  {
   "property": "C75",
   "status": "proved",
   "theorems": [
    "C75_handshake_reads_no_more",
    "C75_authentication_reads_no_more",
    "C75_session_reads_no_more"
   ],
   "note": ""
  },
  {
   "property": "C76",
   "status": "proved",
   "theorems": [
    "C76_messages",
    "C76_frames",
    "C76_receive",
    "C76_service",
    "C76_authentication",
    "C76_session"
   ],
   "note": ""
  },
  {
   "property": "C77",
   "status": "partial",
   "theorems": [
    "C77_packet_lost_refuted",
    "C77_bytes_lost_partial",
    "C77_between_packets_partial"
   ],
   "note": "REFUTED for every session and packet: interrupted near its end it is never received. The partial theorems: the session goes as if the bytes read in vain had not been sent; between packets no harm is done. Cancellation of receive by select! is modelled in Cancel.v: while reading, while a handler works, while a reply is written."
  },
  {
   "property": "C78",
   "status": "partial",
   "theorems": [
    "C78_open_lost_refuted",
    "C78_opens_answered_partial",
    "C78_no_other_answers_partial"
   ],
   "note": "REFUTED for every session and open: if a child interrupts the reply there is forever one answer too few. The partial theorems: if only reading is interrupted all opens are answered; there are never too many answers. Cancellation of receive by select! is modelled in Cancel.v: while reading, while a handler works, while a reply is written."
  },
  {
   "property": "C79",
   "status": "partial",
   "theorems": [
    "C79_child_lost_refuted",
    "C79_children_heard_partial"
   ],
   "note": "REFUTED for every session and start with a reply: if the reply is interrupted nothing is ever heard of the child. The partial theorem: if only reading is interrupted the server listens to every running child. Cancellation of receive by select! is modelled in Cancel.v: while reading, while a handler works, while a reply is written."
  },
  {
   "property": "C80",
   "status": "partial",
   "theorems": [
    "C80_data_lost_refuted",
    "C80_data_offered_partial",
    "C80_no_other_data_partial"
   ],
   "note": "REFUTED for every session and data: interrupted while a handler takes it, it is not offered again. The partial theorems: if only reading is interrupted all data is offered; nothing else ever is. Cancellation of receive by select! is modelled in Cancel.v: while reading, while a handler works, while a reply is written."
  },
  {
   "property": "C81",
   "status": "partial",
   "theorems": [
    "C81_undecodable_refuted",
    "C81_number_skipped_refuted",
    "C81_written_exactly_partial",
    "C81_decodable_partial"
   ],
   "note": "REFUTED in every session where a reply is cut before its first byte: the cipher has counted it, so the client cannot decode what follows (for any cipher that tells the two numbers apart). The partial theorems say exactly what is written in all cases, and that it holds if only reading is interrupted. Cancellation of receive by select! is modelled in Cancel.v: while reading, while a handler works, while a reply is written."
  },
  {
   "property": "C82",
   "status": "partial",
   "theorems": [
    "C82_break_ends_only_itself_refuted",
    "C82_break_in_authentication_refuted",
    "C82_dies_of_one_partial",
    "C82_isolated_partial"
   ],
   "note": "REFUTED for every server state: replies during authentication are sent with unwrap, so a client whose connection breaks there panics the task all connections share. The partial theorems: breaking in the handshake or in the session ends only that connection, and nothing else kills the server but what does anyhow."
  },
  {
   "property": "C83",
   "status": "proved",
   "theorems": [
    "C83_handshake",
    "C83_authentication",
    "C83_session",
    "C83_session_is_plain",
    "C83_session_panics_no_more"
   ],
   "note": "The transport takes some number of bytes, then every write fails. In the authentication the failure is a panic (C82)."
  },
  {
   "property": "C84",
   "status": "proved",
   "theorems": [
    "C84_whole_connection"
   ],
   "note": ""
  },
  {
   "property": "C85",
   "status": "proved",
   "theorems": [
    "C85_every_transcript",
    "C85_any_session",
    "C85_disconnect",
    "C85_broken_input",
    "C85_one_reaction"
   ],
   "note": "The converse of C68. For the endings in a panic see C52."
  },
  {
   "property": "C86",
   "status": "proved",
   "theorems": [
    "C86_beside",
    "C86_end"
   ],
   "note": "The plain session's handlers give the answers they gave, its client sends the messages that were not lost. The relation of the two logs (all_beside) is given cut by cut. Cancellation of receive by select! is modelled in Cancel.v: while reading, while a handler works, while a reply is written."
  },
  {
   "property": "C87",
   "status": "proved",
   "theorems": [
    "C87_output_delivered",
    "C87_end_delivered",
    "C87_exit_delivered",
    "C87_channel_data",
    "C87_no_other_data",
    "C87_no_other_end",
    "C87_no_other_status"
   ],
   "note": "Sent in the sense of the log: what becomes of the bytes is C81. Children never listened to are C79. Cancellation of receive by select! is modelled in Cancel.v: while reading, while a handler works, while a reply is written."
  },
  {
   "property": "C88",
   "status": "proved",
   "theorems": [
    "C88_stdin",
    "C88_stdin_source",
    "C88_numbers",
    "C88_sent_because"
   ],
   "note": "What is lost is C78 and C80. Cancellation of receive by select! is modelled in Cancel.v: while reading, while a handler works, while a reply is written."
  },
  {
   "property": "C89",
   "status": "proved",
   "theorems": [
    "C89_session_is_cut",
    "C89_panics_no_more",
    "C89_cut_breaks"
   ],
   "note": "The transport takes some number of bytes, then every write fails; a reply is dropped only after bytes the transport took. Cancellation of receive by select! is modelled in Cancel.v: while reading, while a handler works, while a reply is written."
  },
  {
   "property": "C90",
   "status": "proved",
   "theorems": [
    "C90_dies_of_one",
    "C90_isolated",
    "C90_whole_connection",
    "C90_plain"
   ],
   "note": "When a connection panics on its own (fails) is C38, C52, C82. Cancellation of receive by select! is modelled in Cancel.v: while reading, while a handler works, while a reply is written."
  },
  {
   "property": "C91",
   "status": "proved",
   "theorems": [
    "C91_output",
    "C91_end",
    "C91_exit",
    "C91_no_other_data",
    "C91_no_other_status",
    "C91_numbers",
    "C91_because",
    "C91_written"
   ],
   "note": "Sent in the sense of the log; C91_written says which bytes. Children never listened to are C79. Cancellation of receive by select! is modelled in Cancel.v: while reading, while a handler works, while a reply is written."
  },
  {
   "property": "C92",
   "status": "proved",
   "theorems": [
    "C92_no_clash",
    "C92_lock_is_free",
    "C92_dropped_lets_go",
    "C92_afresh_lets_go",
    "C92_never_stuck",
    "C92_turns_end"
   ],
   "note": "No hypotheses at all. That the transport and the handlers go on is up to them. Async.v models Client await by await with borrows, lock and guards."
  },
  {
   "property": "C93",
   "status": "proved",
   "theorems": [
    "C93_over",
    "C93_between",
    "C93_dropped",
    "C93_so_far"
   ],
   "note": "The state is the same except for the buffer when the input ends within a packet, which nobody reads any more. Async.v models Client await by await with borrows, lock and guards."
  },
  {
   "property": "C94",
   "status": "proved",
   "theorems": [
    "C94_turns_happen",
    "C94_drops_happen"
   ],
   "note": "Async.v models Client await by await with borrows, lock and guards."
  },
  {
   "property": "C95",
   "status": "proved",
   "theorems": [
    "C95_no_replay_across_connections"
   ],
   "note": "Signing and verifying are the application's; the theorem is about the message it is asked to verify. No hypothesis on the hash but its length: the two colliding strings are named."
  },
  {
   "property": "C96",
   "status": "proved",
   "theorems": [
    "C96_keys_of_connections",
    "C96_keys_of_a_connection"
   ],
   "note": "No hypothesis on the hash but its length: the strings that would collide are named."
  },
  {
   "property": "C97",
   "status": "partial",
   "theorems": [
    "C97_password_refuted",
    "C97_user_name_refuted",
    "C97_login_survived_partial"
   ],
   "note": "REFUTED: for every host any password attempt is fatal (todo!), and so is a validly signed request with a user name that is not UTF-8 (unwrap). The partial theorem: exactly these are."
  },
  {
   "property": "C98",
   "status": "proved",
   "theorems": [
    "C98_ends_so",
    "C98_never_stuck",
    "C98_bounded",
    "C98_ends",
    "C98_so_far"
   ],
   "note": "Login.v models logins and Server::start await by await."
  },
  {
   "property": "C99",
   "status": "proved",
   "theorems": [
    "C99_isolated",
    "C99_dies_of_one",
    "C99_nobody_waits"
   ],
   "note": "Login.v models logins and Server::start await by await."
  }
 ]
}