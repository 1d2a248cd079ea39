{"id": "C01", "title": "Message wire round trip", "statement": "Serialising any well-formed SSH message into a large enough buffer and parsing the produced bytes yields exactly the original message, for every message kind except the ECDH reply (see C06).", "quantifier": "every Message value (all kinds, all field contents and lengths below 2^32), every buffer", "why_tests_cant": "The tests try one literal per message kind; field contents and lengths are unbounded.", "anchors": ["nora_ssh_core/src/message/mod.rs: Message::parse, Message::serialize", "nora_ssh_core/src/message/channel/mod.rs", "nora_ssh_core/src/message/userauth.rs", "nora_ssh_core/src/message/key_exchange/mod.rs", "nora_ssh_core/src/message/service.rs"]}
{"id": "C02", "title": "The message parser accepts exactly the RFC grammar", "statement": "Message::parse returns a message m for a byte string if and only if the byte string is an RFC 4250-4254 encoding of m (fields in order, nothing missing, nothing left over, any non-zero byte meaning TRUE) and m is well-formed (UTF-8 / ASCII / name-list contents valid); hence no byte string has two readings. The ECDH reply is excluded (C06).", "quantifier": "every byte string and every message", "why_tests_cant": "Acceptance of hostile input is an all-inputs statement.", "anchors": ["nora_ssh_core/src/message/mod.rs: Message::parse", "nora_ssh_core/src/data.rs"]}
{"id": "C03", "title": "Parsing never panics", "statement": "Message::parse, SessionRequest::parse, parse_string and NameList::try_from return a value or an error on every byte string; no slice index or unwrap inside them can fail.", "quantifier": "every byte string", "why_tests_cant": "A panic on attacker-controlled input needs one bad byte string out of infinitely many.", "anchors": ["nora_ssh_core/src/message/mod.rs: Message::parse", "nora_ssh_core/src/message/channel/session.rs: SessionRequest::parse", "nora_ssh_core/src/data.rs: parse_string, NameList::try_from"]}
{"id": "C04", "title": "Serialisation writes the RFC bytes, or reports a small buffer", "statement": "Message::serialize returns Some exactly when the buffer is at least as long as the message's RFC encoding; then the first returned slice holds exactly that encoding and the second slice is the untouched remainder of the buffer. If the buffer is too short it returns None without panicking.", "quantifier": "every well-formed message, every buffer content and length", "why_tests_cant": "Exact-fit boundaries for every kind and length cannot be enumerated.", "anchors": ["nora_ssh_core/src/message/mod.rs: Message::serialize", "nora_ssh_core/src/data.rs: make_string2, make_uint32, make_bool, make_raw"]}
{"id": "C05", "title": "Re-encoding an accepted packet", "statement": "If a byte string is accepted by Message::parse, re-serialising the result produces a byte string of the same length that parses to the same message, and it is byte-identical when all booleans were sent as 0 or 1.", "quantifier": "every accepted byte string", "why_tests_cant": "Ranges over all accepted byte strings.", "anchors": ["nora_ssh_core/src/message/mod.rs: Message::parse, Message::serialize"]}
{"id": "C06", "title": "ECDH reply round trip", "statement": "A KEX_ECDH_REPLY message serialised by the library can be parsed by the library.", "quantifier": "every ECDH reply", "why_tests_cant": "There is no test at all for this kind; the statement is about all replies (and is false for all of them).", "anchors": ["nora_ssh_core/src/message/key_exchange/ecdh.rs: Key::parse, KeyExchangeEcdhReply::parse"]}
{"id": "C07", "title": "Framing is tight", "statement": "For messages whose grammar has no open-ended tail, no strict prefix and no strict extension of an accepted byte string is accepted.", "quantifier": "every accepted byte string, every prefix and every suffix", "why_tests_cant": "All truncation points of all messages.", "anchors": ["nora_ssh_core/src/message/mod.rs", "nora_ssh_core/src/message/channel/mod.rs", "nora_ssh_core/src/message/userauth.rs"]}
{"id": "C08", "title": "Message numbers decide the kind", "statement": "The first payload byte alone decides which kind of message can result, it is the RFC-assigned number, an empty payload is reported as having no type, and any number not assigned is reported back verbatim as unknown.", "quantifier": "every byte string", "why_tests_cant": "All 256 numbers times all payloads.", "anchors": ["nora_ssh_core/src/message/mod.rs: Message::parse", "nora_ssh_core/src/message/channel/mod.rs: Channel::parse", "nora_ssh_core/src/message/userauth.rs: UserAuth::parse"]}
{"id": "C09", "title": "Session requests: exact grammar and round trip", "statement": "SessionRequest::parse accepts exactly the RFC 4254 section 6 encodings for the request name given, and serialising a session request then parsing it under the returned name gives the request back.", "quantifier": "every session request, every request name, every byte string", "why_tests_cant": "Unbounded contents.", "anchors": ["nora_ssh_core/src/message/channel/session.rs: SessionRequest"]}
{"id": "C10", "title": "Signal names", "statement": "Signal names convert to Signal values and back without loss, and two different names never give the same Signal.", "quantifier": "every byte string used as a signal name", "why_tests_cant": "All byte strings.", "anchors": ["nora_ssh_core/src/message/channel/session.rs: Signal"]}
{"id": "C11", "title": "Name lists", "statement": "NameList::try_from accepts a byte string iff it is ASCII and is either empty or a comma-separated list of non-empty names; iterating an accepted list yields exactly those names in order and terminates.", "quantifier": "every byte string", "why_tests_cant": "Tests try four lists.", "anchors": ["nora_ssh_core/src/data.rs: NameList, NameListIter"]}
{"id": "C12", "title": "mpint encoding is canonical", "statement": "The positive mpint written for a big-endian byte string denotes the same number, is never read as negative, has no redundant leading byte, and depends only on the number (not on leading zeroes).", "quantifier": "every byte string (any number of leading zeroes), every buffer", "why_tests_cant": "Numbers are unbounded; shared secrets with leading zero bytes are rare at random.", "anchors": ["nora_ssh_core/src/data.rs: make_pos_mpint, make_pos_mpint2"]}
{"id": "C13", "title": "String splitting", "statement": "parse_string returns (s, rest) iff the input is the 32-bit big-endian length of s followed by s followed by rest.", "quantifier": "every byte string", "why_tests_cant": "All inputs.", "anchors": ["nora_ssh_core/src/data.rs: parse_string"]}
{"id": "C14", "title": "Packet framing invariants", "statement": "A packet built by Packet::wrap has a length field that makes the packet a multiple of the block size (counted with or without the length field as requested), between 4 and 255 bytes of padding, returns the payload the caller wrote, and leaves the buffer after the packet untouched.", "quantifier": "every payload, every block size, both alignment modes, every buffer, every random padding", "why_tests_cant": "Alignment arithmetic over every payload length.", "anchors": ["nora_ssh_core/src/packet.rs: Packet::wrap"]}
{"id": "C15", "title": "wrap / wrap_raw round trip", "statement": "Every packet produced by Packet::wrap is accepted by Packet::wrap_raw with the same parameters and yields the same payload.", "quantifier": "every payload, block size, mode, buffer", "why_tests_cant": "All sizes.", "anchors": ["nora_ssh_core/src/packet.rs: Packet::wrap, Packet::wrap_raw, Packet::payload"]}
{"id": "C16", "title": "wrap_raw guards the accessors", "statement": "If wrap_raw accepts a buffer that holds the whole packet, then payload, packet_bytes and as_raw do not panic and payload + padding + 1 equals the packet length.", "quantifier": "every buffer", "why_tests_cant": "All header contents.", "anchors": ["nora_ssh_core/src/packet.rs"]}
{"id": "C17", "title": "Packet::wrap never runs out of room silently", "statement": "Packet::wrap panics exactly when the buffer cannot hold header, payload and padding; it never returns a truncated packet.", "quantifier": "every payload length and every buffer length", "why_tests_cant": "Boundary over all sizes.", "anchors": ["nora_ssh_core/src/packet.rs: Packet::wrap"]}
{"id": "C18", "title": "Reading an unencrypted packet never panics", "statement": "Reading a packet from any byte stream returns a packet or an error.", "quantifier": "every byte stream, every buffer size", "why_tests_cant": "One 4-byte length out of 2^32 is enough to break it.", "anchors": ["nora_ssh/src/packet.rs: parse"]}
{"id": "C19", "title": "Unencrypted packets survive the stream", "statement": "A packet produced by Packet::wrap and written to a stream is read back by packet::parse with the same payload, consuming exactly its own bytes.", "quantifier": "every payload that fits, every following stream content", "why_tests_cant": "All sizes and suffixes.", "anchors": ["nora_ssh/src/packet.rs: parse", "nora_ssh_core/src/packet.rs"]}
{"id": "C20", "title": "Encrypted channel delivers in order", "statement": "For any sequence of payloads sent with Out::send, an In with the same keys and the same starting counter, reading the produced stream, returns exactly the same payloads in the same order and ends with an equal counter.", "quantifier": "every sequence of payloads, every key, every starting counter, every padding", "why_tests_cant": "Sequences are unbounded.", "anchors": ["nora_ssh/src/host.rs: Out::send, In::recv", "nora_ssh_core/src/cipher/chacha20poly1305.rs"]}
{"id": "C21", "title": "No keystream reuse", "statement": "Over the life of one sending cipher, no two keystream bytes are ever drawn from the same key, nonce and position, for up to 2^64 packets, and the one-time MAC key never overlaps the keystream used for data.", "quantifier": "every sequence of packets", "why_tests_cant": "All histories.", "anchors": ["nora_ssh_core/src/cipher/chacha20poly1305.rs: encrypt, apply_data, compute_tag"]}
{"id": "C22", "title": "Nothing unauthenticated is released", "statement": "In::recv returns a payload only if the received tag equals the MAC of the whole received ciphertext, length included, under the current counter; a frame that fails the check is reported as a cipher error, leaves the counter unchanged and its body is not decrypted.", "quantifier": "every byte stream and receiver state", "why_tests_cant": "Adversarial inputs.", "anchors": ["nora_ssh/src/host.rs: In::recv", "nora_ssh_core/src/cipher/chacha20poly1305.rs: decrypt_data"]}
{"id": "C23", "title": "Receiving never panics", "statement": "In::recv returns a payload or an error on every byte stream.", "quantifier": "every byte stream, every key, every counter, every buffer of at least 5 bytes", "why_tests_cant": "Adversarial inputs.", "anchors": ["nora_ssh/src/host.rs: In::recv"]}
{"id": "C24", "title": "Delivery does not depend on how the bytes arrive", "statement": "However the transport splits the incoming bytes into reads, an uninterrupted receiver returns the same sequence of payloads and errors.", "quantifier": "every stream and every way to chop it", "why_tests_cant": "All chunkings.", "anchors": ["nora_ssh/src/host.rs: In::recv"]}
{"id": "C25", "title": "Receiving survives concurrent child output", "statement": "Whatever the interleaving of incoming bytes and child output, no incoming packet is lost or misread.", "quantifier": "every schedule of select! branches", "why_tests_cant": "Needs a particular schedule.", "anchors": ["nora_ssh/src/server.rs: Client::start, Client::receive", "nora_ssh/src/host.rs: In::recv"]}
{"id": "C26", "title": "Receiver rejects short padding", "statement": "A received packet with fewer than four bytes of padding (forbidden by RFC 4253 section 6) is rejected.", "quantifier": "every packet", "why_tests_cant": "All packets.", "anchors": ["nora_ssh_core/src/packet.rs: Packet::wrap_raw", "nora_ssh/src/host.rs: In::recv"]}
{"id": "C27", "title": "Key derivation follows RFC 4253 section 7.2", "statement": "Keys are HASH(K||H||X||session_id) followed by HASH(K||H||previous blocks), for every requested length; asking for more blocks does not change the earlier ones; the six purposes/directions hash pairwise different inputs.", "quantifier": "every secret, every exchange hash, every number of blocks", "why_tests_cant": "All secrets and lengths.", "anchors": ["nora_ssh_core/src/key_exchange.rs: KeyMaterial"]}
{"id": "C28", "title": "The exchange hash binds the whole transcript", "statement": "The byte string hashed for the exchange is the RFC 5656/8731 encoding of both identifiers, both KEXINIT payloads, the host key, both ephemeral keys and the shared secret, and two runs hash the same bytes only if all of these (the secret as a number) agree.", "quantifier": "all transcripts", "why_tests_cant": "Injectivity over all pairs of transcripts.", "anchors": ["nora_ssh_core/src/message/key_exchange/ecdh.rs: digest"]}
{"id": "C29", "title": "Handshake functional correctness", "statement": "When the server handshake succeeds, it wrote exactly its identifier line, a KEXINIT, an ECDH reply whose signature is over the exchange hash of exactly what was exchanged and a NEWKEYS; the session identifier is that hash, both ciphers are keyed as RFC 4253 says and it consumed exactly the client's identifier and three packets.", "quantifier": "every client byte stream, every ephemeral key, every host key", "why_tests_cant": "All client behaviours.", "anchors": ["nora_ssh/src/host.rs: Host::handle_new_client"]}
{"id": "C30", "title": "Algorithm negotiation", "statement": "The handshake goes past KEXINIT only if the client offered curve25519-sha256, the server's host key algorithm, and chacha20-poly1305 in both directions; otherwise it stops with UnsupportedAlgorithms having sent only its own KEXINIT.", "quantifier": "every client KEXINIT", "why_tests_cant": "All offers.", "anchors": ["nora_ssh/src/host.rs: Host::handle_new_client"]}
{"id": "C31", "title": "The handshake survives hostile clients", "statement": "No client byte stream can make the handshake panic.", "quantifier": "every client byte stream", "why_tests_cant": "Adversarial.", "anchors": ["nora_ssh/src/host.rs: Host::handle_new_client"]}
{"id": "C32", "title": "Sequence numbers", "statement": "The counter used for the n-th packet in each direction equals the number of packets sent before it in that direction since the connection started, unencrypted ones included.", "quantifier": "every connection history", "why_tests_cant": "All histories.", "anchors": ["nora_ssh/src/host.rs: Host::handle_new_client", "nora_ssh_core/src/cipher/chacha20poly1305.rs"]}
{"id": "C33", "title": "KEXINIT cookie is fresh", "statement": "The KEXINIT cookie sent is random per connection (RFC 4253 section 7.1).", "quantifier": "every pair of connections", "why_tests_cant": "Statistical/all-runs.", "anchors": ["nora_ssh/src/host.rs: Host::handle_new_client"]}
{"id": "C34", "title": "Identifier exchange round trip", "statement": "An identifier that starts with SSH-2.0- and contains no CR LF, sent with identifier::send, is parsed back exactly, consuming exactly the line.", "quantifier": "every such identifier up to 253 bytes, every following stream", "why_tests_cant": "All contents.", "anchors": ["nora_ssh/src/identifier.rs: parse, send", "nora_ssh_core/src/identifier.rs"]}
{"id": "C35", "title": "Lines before the identification string are skipped", "statement": "Any lines the peer sends before its identification string that do not start with SSH- are ignored, and only a line that starts with SSH- is taken as the identification string.", "quantifier": "every list of preceding lines", "why_tests_cant": "All line lists.", "anchors": ["nora_ssh/src/identifier.rs: parse"]}
{"id": "C36", "title": "Identifier parsing never panics and respects the limit", "statement": "On every stream identifier::parse returns an identifier of at most 253 bytes starting with SSH-2.0- and containing no CR LF, or an error.", "quantifier": "every byte stream", "why_tests_cant": "Adversarial.", "anchors": ["nora_ssh/src/identifier.rs: parse"]}
{"id": "C37", "title": "Signed data binds the request", "statement": "The data a client signs is the RFC 4252 section 7 encoding, and equal signed data implies equal session identifier, user, service, algorithm and key.", "quantifier": "every pair of argument tuples, every buffer", "why_tests_cant": "Injectivity.", "anchors": ["nora_ssh_core/src/message/userauth.rs: format_sign_data"]}
{"id": "C38", "title": "No session without authentication", "statement": "A client reaches the session phase, and is sent USERAUTH_SUCCESS, only if the handler's authenticate returned Ok on the last request; success is sent exactly once and last.", "quantifier": "every client byte stream, every handler", "why_tests_cant": "All histories.", "anchors": ["nora_ssh/src/server.rs: Server::authenticate_new_client"]}
{"id": "C39", "title": "Public-key authentication is bound to the session", "statement": "Whenever the handler is asked to authenticate a public key, the message it is given is the RFC signed data for this session identifier, the user, service, algorithm and key blob of the request, and the algorithm named in the request, in the key blob and in the signature agree.", "quantifier": "every client byte stream", "why_tests_cant": "Adversarial.", "anchors": ["nora_ssh/src/server.rs: Server::authenticate_new_client"]}
{"id": "C40", "title": "One reply per authentication request", "statement": "Every processed authentication request is answered by exactly one message: key-ok or failure for a key query, success or failure otherwise, in order.", "quantifier": "every history", "why_tests_cant": "All histories.", "anchors": ["nora_ssh/src/server.rs: Server::authenticate_new_client"]}
{"id": "C41", "title": "Pre-authentication input cannot panic the server", "statement": "No message sent before authentication makes the server panic.", "quantifier": "every client byte stream", "why_tests_cant": "Adversarial.", "anchors": ["nora_ssh/src/server.rs: Server::authenticate_new_client"]}
{"id": "C42", "title": "Key queries never authenticate", "statement": "Asking whether a key is acceptable never calls authenticate and never ends authentication.", "quantifier": "every key query", "why_tests_cant": "All histories.", "anchors": ["nora_ssh/src/server.rs: Server::authenticate_new_client"]}
{"id": "C43", "title": "Channel table is a map", "statement": "The channel table behaves as a finite map: insert returns an unused id (the smallest one) and binds it, remove and lookup affect only that id, other entries are unchanged.", "quantifier": "every operation sequence", "why_tests_cant": "All sequences.", "anchors": ["nora_ssh/src/arena.rs: Arena"]}
{"id": "C44", "title": "Channel open", "statement": "Every channel open is answered by one confirmation addressed to the opener's channel number, whose sender channel is not the id of any live channel and becomes live, with window and packet size echoed; no other channel changes.", "quantifier": "every session history", "why_tests_cant": "All histories.", "anchors": ["nora_ssh/src/server.rs: Client::receive"]}
{"id": "C45", "title": "Channel request replies", "statement": "A handled channel request is answered iff a reply was wanted, with success for shell/exec and failure for pty/env, addressed to the peer's number for that channel.", "quantifier": "every session history", "why_tests_cant": "All histories.", "anchors": ["nora_ssh/src/server.rs: Client::receive"]}
{"id": "C46", "title": "stdin isolation", "statement": "Data sent to a channel is written only to the process most recently started on that channel, in order.", "quantifier": "every session history", "why_tests_cant": "All histories.", "anchors": ["nora_ssh/src/server.rs: Client::receive"]}
{"id": "C47", "title": "Child output delivery", "statement": "For every child, the bytes read from its stdout are sent in order as channel data to the channel the child was started on, followed at end of file by EOF then CLOSE.", "quantifier": "every schedule", "why_tests_cant": "All schedules.", "anchors": ["nora_ssh/src/server.rs: Client::start"]}
{"id": "C48", "title": "Nothing after CLOSE", "statement": "After the server has sent CLOSE for a channel (or received it), it sends nothing more on it.", "quantifier": "every schedule", "why_tests_cant": "Schedules.", "anchors": ["nora_ssh/src/server.rs: Client::start, Client::receive"]}
{"id": "C49", "title": "Flow control", "statement": "The server never sends more channel data than the window the peer granted, nor a packet larger than the peer's maximum.", "quantifier": "every session history", "why_tests_cant": "Histories.", "anchors": ["nora_ssh/src/server.rs: Client::send_channel"]}
{"id": "C50", "title": "stdin data is complete", "statement": "Every byte of channel data reaches the process's stdin.", "quantifier": "every behaviour of the stdin writer", "why_tests_cant": "Short writes are up to the OS.", "anchors": ["nora_ssh/src/server.rs: Client::receive"]}
{"id": "C51", "title": "Server messages always fit", "statement": "Every message the session loop sends fits its buffer: building and framing it never panics.", "quantifier": "every session history", "why_tests_cant": "All histories.", "anchors": ["nora_ssh/src/server.rs: Client::send, Client::start"]}
{"id": "C52", "title": "An authenticated client cannot crash the server", "statement": "No message sent by an authenticated client makes the server panic.", "quantifier": "every message and history", "why_tests_cant": "Adversarial.", "anchors": ["nora_ssh/src/server.rs: Client::receive"]}
{"id": "C53", "title": "Exit status is delivered", "statement": "The exit status of every child started on a channel is sent to that channel once, before CLOSE.", "quantifier": "every schedule", "why_tests_cant": "Schedules.", "anchors": ["nora_ssh/src/server.rs: Client::start"]}
{"id": "C54", "title": "stderr is distinguishable", "statement": "Bytes a child writes to stderr are sent as extended data, never mixed into the channel's ordinary data.", "quantifier": "every session history", "why_tests_cant": "Histories.", "anchors": ["nora_ssh/src/server.rs: Client::start"]}
{"id": "C55", "title": "Write lock excludes", "statement": "At most one guard of the write lock exists at any time.", "quantifier": "every schedule of lock, poll, drop and cancel", "why_tests_cant": "Schedules.", "anchors": ["nora_ssh/src/sync.rs: LocalMutex"]}
{"id": "C56", "title": "No lost wakeup", "statement": "A task waiting for the write lock is eventually woken after the lock is released.", "quantifier": "every schedule", "why_tests_cant": "Schedules.", "anchors": ["nora_ssh/src/sync.rs: LocalMutexGuardFuture::poll, LocalMutexGuard::drop"]}
{"id": "C57", "title": "scp receive writes the announced bytes", "statement": "In receive mode each created file contains exactly the announced number of bytes that follow its header, whatever the size, and three acknowledgements frame it.", "quantifier": "every input stream and size", "why_tests_cant": "Sizes and contents unbounded; chunk loop.", "anchors": ["nora_scp/src/main.rs: receive, transfer_file, read_header"]}
{"id": "C58", "title": "scp send / receive round trip", "statement": "A file sent with scp -f and received with scp -t arrives with the same contents.", "quantifier": "every file", "why_tests_cant": "All contents.", "anchors": ["nora_scp/src/main.rs: send, receive"]}
{"id": "C59", "title": "scp receive stays in its directory", "statement": "With -d, every file is created inside the target directory.", "quantifier": "every input stream", "why_tests_cant": "Adversarial.", "anchors": ["nora_scp/src/main.rs: receive"]}
{"id": "C60", "title": "scp keeps file names", "statement": "A received file gets the name that was sent.", "quantifier": "every file name", "why_tests_cant": "All names.", "anchors": ["nora_scp/src/main.rs: read_header"]}
{"id": "C61", "title": "exec argument splitting", "statement": "The example server runs the command's maximal runs of non-whitespace as program and arguments.", "quantifier": "every command", "why_tests_cant": "All commands.", "anchors": ["nora_sshd/src/main.rs: spawn"]}
{"id": "C62", "title": "example server authorises keys", "statement": "The example server lets a client in only with a signature valid under a key authorised for that user.", "quantifier": "every key and user", "why_tests_cant": "All keys.", "anchors": ["nora_sshd/src/main.rs: authenticate"]}
{"id": "C63", "title": "Connections are isolated", "statement": "Whatever one client sends, the server keeps serving the others.", "quantifier": "every schedule of several clients", "why_tests_cant": "Schedules.", "anchors": ["nora_ssh/src/server.rs: Server::start"]}
{"id": "C64", "title": "UTF-8 fields", "statement": "Text fields the parser hands out as strings are exactly the byte strings that encode a sequence of Unicode scalar values.", "quantifier": "every byte string", "why_tests_cant": "All byte strings.", "anchors": ["nora_ssh_core/src/message/mod.rs: Debug::parse", "nora_ssh_core/src/message/channel/mod.rs: OpenFailure::parse"]}
{"id": "C65", "title": "A zero shared secret is refused", "statement": "The handshake aborts when the Diffie-Hellman result is all zero (RFC 8731 section 3).", "quantifier": "every client key with an all-zero result", "why_tests_cant": "Needs contributory-behaviour inputs nobody sends by accident.", "anchors": ["nora_ssh/src/host.rs: Host::handle_new_client"]}
{"id": "C66", "title": "Sequence numbers wrap at 2^32", "statement": "The packet sequence number is a uint32 that wraps to zero after 2^32 packets (RFC 4253 section 6.4).", "quantifier": "every connection history", "why_tests_cant": "No test sends 2^32 packets.", "anchors": ["nora_ssh_core/src/cipher/chacha20poly1305.rs"]}
{"id": "C67", "title": "A client with an accepted key is let in", "statement": "After the handshake, a client that requests the user authentication service and then sends a public-key request whose signature the handler accepts is authenticated, and the bytes that follow are still unread.", "quantifier": "every handshake, key, signature, padding and handler", "why_tests_cant": "Universal over inputs; a test has one key.", "anchors": ["nora_ssh/src/server.rs: Server::authenticate_new_client"]}
{"id": "C68", "title": "Session transcript", "statement": "The log of a session is a sequence of turns, one per scheduled event and in that order, each being exactly what the protocol prescribes for the state the log implies; the messages in it are the decoding of consecutive intact frames received, and the output is the frames of the messages sent, numbered consecutively.", "quantifier": "every schedule, input, handler behaviour", "why_tests_cant": "Unbounded histories and schedules.", "anchors": ["nora_ssh/src/server.rs: Client::start, Client::receive"]}
{"id": "C69", "title": "Nothing unprompted", "statement": "Every message the session sends and every process it starts is the immediate consequence of one received message, one piece of child output or one child exit that calls for it; a process is only started by a well-formed shell or exec request on an open channel.", "quantifier": "every schedule, input, handler behaviour", "why_tests_cant": "Unbounded histories and schedules.", "anchors": ["nora_ssh/src/server.rs: Client::start, Client::receive"]}
{"id": "C70", "title": "scp receive never panics", "statement": "Whatever arrives on standard input, scp -t ends with success or an error, never a panic.", "quantifier": "every input stream", "why_tests_cant": "Adversarial.", "anchors": ["nora_scp/src/main.rs: receive, read_header"]}
{"id": "C71", "title": "scp option parsing", "statement": "The last of -t and -f decides the mode, -d the directory flag wherever it stands, all other arguments are kept in order as paths, and any other dashed argument is refused.", "quantifier": "every argument list", "why_tests_cant": "All argument lists.", "anchors": ["nora_scp/src/main.rs: start"]}
{"id": "C72", "title": "Commands that cannot be run are refused", "statement": "When the client asks the example server for a command that is blank or cannot be started, the server answers with a failure and goes on.", "quantifier": "every command, session and operating system", "why_tests_cant": "All commands and states.", "anchors": ["nora_sshd/src/main.rs: spawn"]}
{"id": "C73", "title": "Ends of children are reported as they were", "statement": "The example server reports the exit code of a child that exited, and reports a child that was killed by a signal as such (exit-signal, or at least not as success).", "quantifier": "every child and session", "why_tests_cant": "All interleavings and ends.", "anchors": ["nora_sshd/src/main.rs: spawn", "nora_ssh/src/server.rs: Client::start"]}
{"id": "C74", "title": "A whole connection", "statement": "Every connection of the server that has a session was authenticated first: the client's packets are, in order and without gap, a service request, authentication requests answered one for one and only the last with success, and the session's messages; the server's output is exactly the numbered frames of its replies followed by the session's messages.", "quantifier": "every schedule of several clients, handler and stream", "why_tests_cant": "Composition of all phases under arbitrary interleaving.", "anchors": ["nora_ssh/src/server.rs: Server::start, authenticate_new_client, Client::start"]}
{"id": "C75", "title": "Nothing is read ahead", "statement": "Handshake, authentication and session consume exactly the bytes they need: what a client sends later is untouched and changes nothing of what happened before.", "quantifier": "every stream, continuation, handler and schedule", "why_tests_cant": "All streams and continuations.", "anchors": ["nora_ssh/src/host.rs: handle_new_client", "nora_ssh/src/server.rs: authenticate_new_client, Client::receive"]}
{"id": "C76", "title": "Nothing left in a buffer leaks", "statement": "What a message is written as, what a frame is sealed as, what a packet is received as, and all that authentication and session answer do not depend on what the reused packet buffers held before.", "quantifier": "every message, connection, buffer content and schedule", "why_tests_cant": "All buffer contents and histories.", "anchors": ["nora_ssh/src/server.rs: Server::authenticate_new_client, Client::start", "nora_ssh_core/src/message/**: serialize"]}
{"id": "C77", "title": "Input survives child activity", "statement": "When a child has output or exits while a packet of the client is being read, the packet is still received.", "quantifier": "every session, point of interruption and continuation", "why_tests_cant": "The point of interruption is up to the scheduler and the network.", "anchors": ["nora_ssh/src/server.rs: Client::start (select!), Client::receive", "nora_ssh/src/host.rs: In::recv"]}
{"id": "C78", "title": "Opens are answered whatever children do", "statement": "Every channel open is answered even when a child has output or exits meanwhile.", "quantifier": "every session, point of interruption and continuation", "why_tests_cant": "Interleavings.", "anchors": ["nora_ssh/src/server.rs: Client::start (select!), Client::receive"]}
{"id": "C79", "title": "Started children are heard whatever other children do", "statement": "The output and the end of every child that was started are waited for, even when another child has output or exits meanwhile.", "quantifier": "every session, point of interruption and continuation", "why_tests_cant": "Interleavings.", "anchors": ["nora_ssh/src/server.rs: Client::start (select!), Client::receive"]}
{"id": "C80", "title": "Channel data is passed on whatever children do", "statement": "All channel data received for a child is offered to it, even when a child has output or exits meanwhile.", "quantifier": "every session, point of interruption and continuation", "why_tests_cant": "Interleavings.", "anchors": ["nora_ssh/src/server.rs: Client::start (select!), Client::receive"]}
{"id": "C81", "title": "Output stays decodable whatever children do", "statement": "What the server writes is at all times the consecutively numbered frames of the messages it sent, even when a child has output or exits while a reply is written.", "quantifier": "every session, point of interruption and continuation", "why_tests_cant": "Interleavings.", "anchors": ["nora_ssh/src/server.rs: Client::send, Client::start (select!)", "nora_ssh/src/host.rs: Out::send"]}
{"id": "C82", "title": "A connection that breaks ends only itself", "statement": "When writing to one client fails, at whatever byte, that connection ends and the server keeps serving the others.", "quantifier": "every server state, client, schedule and point of failure", "why_tests_cant": "The point of failure is up to the network.", "anchors": ["nora_ssh/src/server.rs: Server::start, authenticate_new_client, Client::start", "nora_ssh/src/host.rs: Out::send"]}
{"id": "C83", "title": "Until it breaks a connection is no different", "statement": "Over a transport that fails after some number of bytes, handshake, authentication and session do exactly what they would do otherwise up to the message that cannot be written; a prefix of the same bytes is written, nothing is done afterwards, and a session never panics because of it.", "quantifier": "every stream, handler, schedule and point of failure", "why_tests_cant": "All points of failure and histories.", "anchors": ["nora_ssh/src/host.rs: handle_new_client, Out::send", "nora_ssh/src/server.rs: authenticate_new_client, Client::start, Client::send"]}
{"id": "C84", "title": "A whole connection, also if it breaks", "statement": "Every connection of the server that has a session, whether its transport fails or not, was authenticated first and is one described by C74, or such a one cut short at the message that could not be written.", "quantifier": "every schedule of several clients, handler, stream and points of failure", "why_tests_cant": "Composition of all phases under arbitrary interleaving and failures.", "anchors": ["nora_ssh/src/server.rs: Server::start, authenticate_new_client, Client::start"]}
{"id": "C85", "title": "Every prescribed behaviour happens", "statement": "Every sequence of turns the protocol of the session allows, and every ending, happens in a session whose client sends just the messages it contains; any session can go on this way; and to each message, piece of output or exit there is only one reaction.", "quantifier": "every session, handler, transcript and framing", "why_tests_cant": "All transcripts; and a server that refuses legitimate behaviour is only noticed when it is tried.", "anchors": ["nora_ssh/src/server.rs: Client::start, Client::receive"]}
{"id": "C86", "title": "A cancelled session is a plain session of another client", "statement": "However often receive is dropped because a child has output or exits, what the session does is what a session without cancellation does for some other client and handlers, except that messages whose handler was dropped count as not sent, replies cut short as sent, and children started before such a reply as children without output; as many of each as were cancelled. Both end up with the same channels, children listened to and sequence number.", "quantifier": "every session, handler, schedule and points of cancellation", "why_tests_cant": "Interleavings: the select! may drop receive at every await.", "anchors": ["nora_ssh/src/server.rs: Client::start (select!), Client::receive"]}
{"id": "C87", "title": "What children say is passed on despite cancellation", "statement": "Also when receive is dropped at arbitrary points, every piece of output that is read is sent at once, and alone, on the channel of the child, in order; the end of the output and the exit status are too, once; and no other data, end-of-file, close or status is ever sent.", "quantifier": "every session, handler, schedule and points of cancellation", "why_tests_cant": "Interleavings: the select! may drop receive at every await.", "anchors": ["nora_ssh/src/server.rs: Client::start (select!)"]}
{"id": "C88", "title": "Cancellation mixes nothing up", "statement": "Also when receive is dropped at arbitrary points, a child is only given data that was sent to its channel while it was the channel's child, in the order it was sent; two channels confirmed with the same number were not open at once; and every message that is sent is the reaction to the event just before.", "quantifier": "every session, handler, schedule and points of cancellation", "why_tests_cant": "Interleavings: the select! may drop receive at every await.", "anchors": ["nora_ssh/src/server.rs: Client::start (select!), Client::receive"]}
{"id": "C89", "title": "A session that breaks and is cancelled", "statement": "Over a transport that fails after some number of bytes, with receive dropped at arbitrary points, a session does what it would do over one that takes all, up to the message that cannot be written (a reply about to be dropped included); nothing is done afterwards and it panics no more often.", "quantifier": "every session, handler, schedule, points of cancellation and of failure", "why_tests_cant": "All points of failure and cancellation, combined.", "anchors": ["nora_ssh/src/server.rs: Client::start (select!), Client::receive, Client::send", "nora_ssh/src/host.rs: Out::send, In::recv"]}
{"id": "C90", "title": "Connections with all faults are isolated", "statement": "In a server of many connections whose transports fail and whose receive is dropped at arbitrary points, each connection does what it would do alone, was authenticated before its session, and the server stops only because one connection on its own panics.", "quantifier": "every schedule of several clients, handler, stream, points of cancellation and of failure", "why_tests_cant": "Composition of all phases under arbitrary interleaving, cancellation and failures.", "anchors": ["nora_ssh/src/server.rs: Server::start, authenticate_new_client, Client::start"]}
{"id": "C91", "title": "Children are heard at a server with all faults", "statement": "In such a server every piece of output that is read, every end and every exit status is sent at once to the client that started the child, or that client's transport failed just then; no data or status is sent otherwise, channel numbers in use are not given twice, every message is the reaction to the event before it, and the bytes written are consecutively numbered frames of the messages sent and beginnings of replies dropped, as far as the transport takes them.", "quantifier": "every schedule of several clients, handler, stream, points of cancellation and of failure", "why_tests_cant": "Composition of all phases under arbitrary interleaving, cancellation and failures.", "anchors": ["nora_ssh/src/server.rs: Server::start, Client::start (select!)", "nora_ssh/src/host.rs: Out::send"]}
{"id": "C92", "title": "A session does not get in its own way", "statement": "Whatever the order in which bytes arrive, handlers answer, writes progress and children interrupt, no RefCell of a client is borrowed while it is borrowed, the write lock is free whenever it is asked for, everything is let go when receive is dropped, and the session waits for nothing but the transport and handlers.", "quantifier": "every connection, handler, input and sequence of polls", "why_tests_cant": "A double borrow or self-deadlock needs one particular interleaving of awaits.", "anchors": ["nora_ssh/src/server.rs: Client::start, receive, send", "nora_ssh/src/sync.rs: LocalMutex", "nora_ssh/src/host.rs: Out::send, In::recv"]}
{"id": "C93", "title": "Awaits add no behaviour", "statement": "A session run await by await, with packets arriving and replies leaving in arbitrary pieces, does what some session run turn by turn does: it ends the same way in the same state, is in such a state between turns, is dropped only at the points considered by C77-C91, and all it has written and logged at any moment is the beginning of what such a session writes and logs.", "quantifier": "every connection, handler, input, point of failure and sequence of polls", "why_tests_cant": "Interleavings at every await.", "anchors": ["nora_ssh/src/server.rs: Client::start, receive, send", "nora_ssh/src/host.rs: Out::send, In::recv"]}
{"id": "C94", "title": "Awaits lose no behaviour", "statement": "Every session of turns, with receive dropped and the transport failing at any of the points considered by C77-C91, is a run await by await; so what is refuted there is a defect of the code and not of the coarser view.", "quantifier": "every connection, handler, input, point of failure and sequence of turns", "why_tests_cant": "Interleavings at every await.", "anchors": ["nora_ssh/src/server.rs: Client::start, receive, send", "nora_ssh/src/host.rs: Out::send, In::recv"]}
{"id": "C95", "title": "No signature is worth anything in another connection", "statement": "If the application is asked about the same signed message in two connections of a host, then user, service, algorithm and key are the same, and the two handshakes had the same client identification, KEXINIT and ephemeral key, the same server ephemeral key and the same shared secret; or else the two exchanges' bytes, which differ, have the same SHA-256.", "quantifier": "every host, two connections with any randomness, handlers and input", "why_tests_cant": "Two connections and all inputs; hash collisions cannot be sampled.", "anchors": ["nora_ssh/src/server.rs: authenticate_new_client", "nora_ssh/src/host.rs: handle_new_client"]}
{"id": "C96", "title": "Keys are separated", "statement": "Two of the four keys of a connection, or a key of one connection and a key of another, are equal only if they have the same role and the handshakes the same contents, or if two different strings that were hashed, for the keys or for the exchanges, have the same SHA-256.", "quantifier": "every host, two connections with any randomness and input, every two keys", "why_tests_cant": "Hash collisions cannot be sampled.", "anchors": ["nora_ssh/src/host.rs: handle_new_client", "nora_ssh_core/src/key_exchange.rs: KeyMaterial"]}
{"id": "C97", "title": "The example server survives every login attempt", "statement": "No authentication request that reaches the example server's application ends the connection with a panic.", "quantifier": "every host, input and attempt", "why_tests_cant": "Each kind of attempt, with every user name.", "anchors": ["nora_sshd/src/main.rs:72-96"]}
{"id": "C98", "title": "A login ends, and as prescribed, however bytes arrive", "statement": "A login whose bytes arrive in arbitrary pieces, whose replies are taken in arbitrary pieces and whose handlers answer at any time waits for nothing else, comes to an end after a bounded number of such events, ends as it would had all been there at once, and until then has read a beginning of its input and written a beginning of what it writes in the end.", "quantifier": "every host, handler, input, point of failure and sequence of arrivals", "why_tests_cant": "All ways to cut the streams, with attackers choosing them.", "anchors": ["nora_ssh/src/server.rs: authenticate_new_client", "nora_ssh/src/host.rs: handle_new_client", "nora_ssh/src/identifier.rs: parse", "nora_ssh/src/packet.rs: parse"]}
{"id": "C99", "title": "Logins and sessions do not get in each other's way", "statement": "In a server whose connections log in and have sessions interleaved at every await, each connection is in the state it would be in alone with the same events, each that is not over can go on whatever the others do or fail to do, and the server stops only because one connection on its own panics.", "quantifier": "every schedule, handler, set of streams and points of failure", "why_tests_cant": "Interleavings at every await of many connections.", "anchors": ["nora_ssh/src/server.rs: Server::start, authenticate_new_client, Client::start"]}
{"id": "C100", "title": "The server is that of turns", "statement": "A server whose connections are interleaved at every await does what one does whose logins are one step and whose sessions go turn by turn: connections are in the same states but for a login or turn that is going on, and it panics only if that one can; conversely everything that one does, panics included, happens. So what C63, C74, C82, C84, C90 and C91 say of servers holds at every await.", "quantifier": "every schedule, handler, set of streams, points of cancellation and failure", "why_tests_cant": "Interleavings at every await of many connections.", "anchors": ["nora_ssh/src/server.rs: Server::start, authenticate_new_client, Client::start"]}
{"id": "C101", "title": "The published algorithms are what is assumed", "statement": "ChaCha20, Poly1305, SHA-256 and X25519 as published have the sizes that all other properties assume of the primitives, and Poly1305 is the value of the polynomial with the message's blocks as coefficients.", "quantifier": "every key, nonce, message and host", "why_tests_cant": "All inputs.", "anchors": ["nora_ssh_core/src/cipher/chacha20poly1305.rs", "nora_ssh/src/host.rs: handle_new_client"]}
{"id": "C102", "title": "Both sides contribute to the keys", "statement": "No client can make the keys of a connection independent of the server's ephemeral secret.", "quantifier": "every host, randomness and client key", "why_tests_cant": "Needs public values of small order, for which no test looks.", "anchors": ["nora_ssh/src/host.rs:201-232"]}
{"id": "C103", "title": "Forged packets are accepted under few keys", "statement": "Of the 2^256 one-time keys under which a receiver could be working, of which 2^128 accept a given packet, at most 2^25 times the number of 16-byte blocks also accept a given different one.", "quantifier": "every cipher, two different packets, every set of keystreams", "why_tests_cant": "A probability that small cannot be sampled.", "anchors": ["nora_ssh_core/src/cipher/chacha20poly1305.rs: authenticate, decrypt_data"]}
{"id": "C104", "title": "The 32-bit block counter is never felt", "statement": "That the stream cipher counts blocks with 32 bits where OpenSSH does with 64 (the FIXME at the top of the file) changes nothing of what is sent or received.", "quantifier": "every keystream equal up to 2^38 bytes, every sequence of packets", "why_tests_cant": "A difference would show only after 256 GB in one packet.", "anchors": ["nora_ssh_core/src/cipher/chacha20poly1305.rs:3-4, 44-91", "nora_ssh/src/host.rs: Out::send, In::recv"]}
{"id": "C105", "title": "Both sides of the exchange get the same keys", "statement": "With X25519 and SHA-256 as published, a client that follows RFC 8731 computes from its own secret and the bytes the server wrote the exchange hash that the server signed and the very ciphers that the server uses, so that each side receives what the other one sends.", "quantifier": "every host, every pair of secrets, every client stream of a handshake that follows the protocol, every sequence of packets afterwards", "why_tests_cant": "A test runs a few of 2^502 pairs of secrets; agreement is a theorem about the curve.", "anchors": ["nora_ssh/src/host.rs:186-258", "nora_ssh_core/src/key_exchange.rs: ExchangeHash, KeyMaterial"]}
{"id": "C106", "title": "The server contributes to the keys when the client computed its public value", "statement": "With X25519 as published, the shared secret with a public value that was computed from a secret is never zero, and two of the server's secrets lead to the same one only if they stand for the same scalar or for two with sum 8 times the order of the base point.", "quantifier": "every pair of secrets of the server, every secret of the client", "why_tests_cant": "No test can go through the secrets of the server.", "anchors": ["nora_ssh/src/host.rs:192-193, 205-222"]}
{"id": "C107", "title": "A client with a key gets in", "statement": "With the algorithms as published, a client that computes the keys from its own secret and what the server wrote, and signs with the seed of any Ed25519 key, is admitted by the example server as the user it named, and nothing of what it sends next is lost.", "quantifier": "every host, randomness, client secret, seed, user and service name, every framing of the client's packets", "why_tests_cant": "A login goes through every algorithm; tests try a few keys.", "anchors": ["nora_ssh/src/server.rs: authenticate_new_client", "nora_ssh/src/host.rs: handle_new_client", "nora_sshd/src/main.rs:72-96"]}
{"id": "C108", "title": "A login takes a secret", "statement": "Nobody is admitted who has not signed for this very session and user: a signature that is accepted in one session is accepted in no other, nor for another user.", "quantifier": "every host, key, signature, session, user and service", "why_tests_cant": "Needs a key for which no test looks.", "anchors": ["nora_sshd/src/main.rs:82-94"]}
{"id": "C109", "title": "An accepted signature cannot be altered", "statement": "Of all signatures of a message under a key that begin with the same 32 bytes, the server accepts at most one.", "quantifier": "every key, message and pair of signatures", "why_tests_cant": "All signatures.", "anchors": ["nora_sshd/src/main.rs:82-94"]}
{"id": "C110", "title": "A failed transfer is reported", "statement": "When scp -t does not receive and store all files, its caller can tell: the exit status is not that of success, or the other side gets an error byte.", "quantifier": "every input, world, list of paths and session of the example server", "why_tests_cant": "All points at which a transfer can break off.", "anchors": ["nora_scp/src/main.rs:28-64", "nora_sshd/src/main.rs:104-107"]}
{"id": "C111", "title": "An acceptable key can be used", "statement": "The example server answers a query for a key with SSH_MSG_USERAUTH_PK_OK only if a login with that key can succeed (RFC 4252 section 7).", "quantifier": "every host, connection, user and key", "why_tests_cant": "All keys and connections.", "anchors": ["nora_sshd/src/main.rs:58-96", "nora_ssh/src/server.rs: authenticate_new_client"]}
{"id": "C112", "title": "Any file can be the target of a transfer", "statement": "A client of the example server can store a file at any path with scp, by some command and input.", "quantifier": "every path, command, input and world", "why_tests_cant": "All commands and inputs.", "anchors": ["nora_sshd/src/main.rs:126-136", "nora_scp/src/main.rs:39-162"]}
