# Formal model of nora_ssh in Rocq (Coq 8.16)

## Method

* `theories/` holds an executable Gallina model of the Rust code, function by function.
  Every definition cites the file and lines it models, and says what it simplifies.
* A Rust function that may panic returns `res E A := Ok | Err | Panic`. `Option` is `res unit`.
  Slice indexing, `unwrap`, `try_into().unwrap()`, `todo!()` are explicit `Panic` branches.
* Bytes are `Coq.Init.Byte.byte`, so no "is a byte" side conditions exist. Integers are `N`;
  range facts Rust gets from its types (`u32 < 2^32`) are explicit boolean predicates.
* `&mut [u8]` writers are a state monad on a cursor (bytes behind, bytes ahead). The `usize`
  each Rust writer returns is computed by the same sum as in the code, separate from what was written.
* Specifications live in `Spec*.v`, do not use model functions, and follow the RFC tables.
* Property theorems live in `Prop*.v` files, each closed by `exact`, followed by `Print Assumptions`.

## Plan per property

| Id | Modelled | Proof |
|----|----------|-------|
| C01-C05, C07, C08 | data.rs, message/** parse and serialize | grammar as field tables; parser = grammar both ways; writer = canonical encoding; rest are corollaries |
| C06 | ecdh.rs | refuted: every byte string is rejected as ECDH reply, in particular the encoding of every reply |
| C09, C10 | session.rs | same as C01/C02 |
| C11 | NameList, NameListIter | induction on the list; spec is "join of non-empty names" |
| C12 | make_pos_mpint | value and canonicity by induction |
| C13 | parse_string | direct |
| C14-C17 | packet.rs (core) | arithmetic on and-not masks |
| C18, C19 | nora_ssh/packet.rs | C18 refuted for every buffer, with the exact set of panicking lengths; C19 direct |
| C20-C24, C26 | cipher, host.rs In/Out | ChaCha20 and Poly1305 are arbitrary functions; induction on payload sequence; chunking by induction; C26 refuted |
| C25 | recv as a byte-driven machine with cancellation | refuted, for every frame near its end; partial: cancellation at packet boundaries is safe |
| C27, C28 | key_exchange.rs, ecdh::digest | hash is an arbitrary function; injectivity of the hashed byte string |
| C29-C33 | handle_new_client | straight-line symbolic execution over arbitrary streams; C31, C33 refuted |
| C34-C36 | identifier.rs | induction on stream; C35 refuted for every identifier, partial version exact for lines without CR |
| C37 | format_sign_data | injectivity of field encodings |
| C38-C42 | authenticate_new_client | trace semantics, induction on the request loop; C41 refuted |
| C43 | arena.rs | refinement to a partial function |
| C44-C54 | Client::start/receive | event-driven step function, induction over event lists; C48, C49, C50, C52, C53, C54 refuted, by example and (C85) for every session with a child |
| C68, C69 | Client::start/receive | the log is a list of turns (simulation invariant: channel table, readers and waits are functions of the log); causes by inversion |
| C55, C56 | sync.rs | transition system over lock/poll/drop; C56 refuted with a schedule, and from every state with a holder and a waiter; partial version proved |
| C57-C60, C70, C71 | nora_scp | state monad over input and a log of operations; the world is a parameter; induction on input; C58, C59, C60, C70 refuted |
| C61, C62, C72, C73 | nora_sshd | words as an inductive relation; C62 refuted by a client built for every server; C72, C73 refuted for every session |
| C75, C52 | all phases | the phases are local in the input (if they succeed they do so with the same result on every extension); so any session can be extended by a fatal packet |
| C63, C74 | Server::start | interleaving of connections: each equals its own run (induction on the schedule); C63 refuted for every server state by a client built from its host key; C74 composes handshake, authentication and session |
| C76 | all writers, Out, In, auth and session loops | two runs on buffers of the same length agree (relational, compositional over the monads) |
| C77-C81 | `select!` dropping `receive` | runs with cuts; with cuts in reading only: equal, up to the buffer (C76), to a plain session on a thinned stream; refuted for every session by counting invariants over all continuations; C81 refuted for every session and every cipher that tells numbers apart, and what is written then given exactly |
| C82-C84 | all phases over a transport that breaks | the same programs with writes that fail after a number of bytes; simulation against the plain ones; C82 refuted for every server state by a client built from its host key |
| C85 | Client::start/receive | converse of C68: the step function is run along a given transcript; turns are deterministic |
| C86-C88 | `select!` dropping `receive` | a cancelled session is simulated by a plain one whose handlers answer from a list and whose client's stream is made of the messages not lost (C85 gives that session); the properties of C44-C47, C53, C69 that survive are carried over along the relation of the logs |
| C89-C91 | `Server::start`, `Client::start` with failing writes and dropped `receive` together | C89 compares a step over a breaking transport with the one of `Cancel.v`, as C83 does with `Session.v`; C90 is the induction of C82 over it; C91 carries C81, C87 and C88 over to the logs of a server's clients, whole or broken off |
| C92-C94 | `Client::start`, `receive`, `send`, `Out::send`, `In::recv` await by await, with the `RefCell`s, the `LocalMutex` and guards | programs are trees of awaits; a guard discipline kept by every step (C92); a denotation and the set of states where a program waits, both invariant under steps, computed for `receive` and the branches and found to be the turns and cuts of `Faults.v` (C93), and reachable (C94) |
| C95, C96 | handle_new_client, authenticate, key derivation, in two connections | both handshakes decomposed (C29), the signed message and the exchange bytes injective (C28, C39), hash inputs of the keys pairwise different; where a hash would have to collide the two strings are named (`collision`), nothing is assumed |
| C97 | example server's `authenticate` in the authentication loop | refuted for every password, and for every signing key and non-UTF-8 name, by a client built for an arbitrary host; partial: an exact description of the fatal attempts |
| C98 | `handle_new_client`, `Identifier::parse`, `Packet::parse`, `authenticate_new_client` await by await | programs are trees of reads, writes and handlers, possibly infinite; a big-step relation that every program comes to what the one-step model says, kept by every event; the number of events is bounded by induction on that relation |
| C99 | `Server::start` with logins and sessions interleaved at every await | invariant: each connection's state is that of its own events alone; progress of each from C92 and C98 |
| C100 | the same against the server of `Faults.v` | simulation in both directions: a login or turn of the coarser server is appended when it ends in the finer one; conversely each is played out event by event |
| C101 | ChaCha20, Poly1305, SHA-256, X25519 after their publications (`Prim.v`) | lengths by structure; Poly1305's accumulator as a sum of powers modulo 2^130 - 5 |
| C102 | `handle_new_client` with X25519 and SHA-256 as published | refuted for every host: invariants of the Montgomery ladder on points of order 1, 2, 4 and 8 (congruences modulo p, no group law), then the handshake of C29 is determined |
| C103 | `authenticate` with Poly1305 as published, any keystream | 2^130 - 5 is prime (Pocklington); a polynomial has no more roots than its degree; keys with equal r counted bit by bit |
| C104 | `Out::send`, `In::recv` with two keystreams | packet lengths have 32 bits, so no byte beyond 2^33 of the stream is drawn |
| C105 | `handle_new_client` with X25519 and SHA-256 as published, and a client after RFC 8731 (`SpecDh.v`) | 2^255 - 19 is prime (Pocklington); the Edwards form of the curve is a group over any field where d is no square (`EdThm.v`); the ladder computes multiples of a point; multiples commute; then C29 and C20 |
| C106 | X25519 as published | the order of the base point is prime (Pocklington, one ladder run by the kernel); equal coordinates mean equal or opposite points |
| C107 | `authenticate_new_client` with every algorithm of the client's side as published (`Prim.v`, `Sig.v`) | Ed25519's extended coordinates are points of the curve of C105 (a square root of -1 turns one form into the other); encoding and decoding of points by Euler's criterion; the order of the base point; then C105 and C67 |
| C108 | the same | refuted for every host: with the neutral point as the key both sides of the equation are neutral for every message. Partial: with a key made from a seed, cancel in the group and use that the order is prime |
| C109 | Ed25519's verification | every decoded point is on the curve, so both sides of the equation can be compared in the group |
| C110 | nora_scp `main` (`ScpMain.v`), example server's exit status | refuted: a file cut short ends with status 0; the output is one zero byte per acknowledgement, counted by induction on the files |
| C111 | queries for keys, example server's handlers, Ed25519's decoding of keys | refuted, from the log of calls that C38 and C42 describe |
| C112 | splitting of commands (`Sshd.v`) composed with `ScpMain.v` | refuted: no word has a space, nor has a name in a header; induction on arguments and files |
| C65, C66 | handle_new_client, cipher | refuted by running the model on an arbitrary zero secret, and on a counter of 2^32; C66 partial below 2^32 |
| C67 | authenticate_new_client | forward execution on the good client's packets |
| C64 | `str::from_utf8` (std) | validator = image of the scalar-value encoder |

## Trusted base

* **Coq 8.16.1's kernel.** No axiom is declared, no kernel check is switched off, nothing is admitted.
* **Print Assumptions.** Every `Prop*.v` file ends its theorems with `Print Assumptions`. Each one prints
  `Closed under the global context`: no theorem named in MANIFEST.json depends on any axiom, the standard
  library's included. (`Lia` and `Zify` load `Coq.ssr.ssrunder`, whose seven axioms are therefore in the
  context of the libraries loaded. No theorem uses them.)
* **The reading of the Rust source.** No code was run, extracted or translated by a tool. Each definition
  cites the lines it was read from. If the reading is wrong the theorems are about another program.
* **The specifications.** `Spec*.v` says what the English properties mean. They were tested by seeded faults
  in the model (`seeded/LOG.jsonl`).
* **Libraries the code calls.** These are parameters of the model (records of arbitrary functions), so
  theorems hold whatever they compute, with these side conditions where stated:
  ChaCha20 and Poly1305 (`Crypto`; `crypto_ok`: tags have 16 bytes); SHA-256 (32 bytes of output);
  X25519, ECDSA P-256 signing, the encoding of points (`Host`); ed25519 (`Ed25519`);
  random sources (`rng_ok`: as many bytes as asked for); handlers, children, the operating system
  and file system. C101-C109 alone are about particular functions: `Prim.v` defines ChaCha20, Poly1305, SHA-256
  and X25519, `Sig.v` SHA-512 and Ed25519 after their publications (test vectors of the first three are examples in
  `PropPrim.v`; one each of X25519 and Ed25519 was computed once and left out, being slow to recheck), shows that they meet the side
  conditions, and what follows for packets and handshakes. That the crates compute these is trusted; their
  sources are not in /repo. (ed25519-dalek also takes keys whose encoding is not the shortest, which RFC 8032 and
  `Sig.v` refuse; C107-C109 are not about those.) ECDSA remains a parameter.
* **Standard library.** `str::from_utf8`, slice indexing, `split_at`, `copy_from_slice`, `to_be_bytes`,
  `read_exact`, `RefCell` and `Vec` are modelled in `Base.v` and `Packet.v` by what their documentation says.

## What is modelled

| File | Modelled | Not modelled |
|------|----------|--------------|
| core `data.rs` | all (`Data.v`) | `Debug`, `Display` |
| core `packet.rs` | all (`Packet.v`) | |
| core `identifier.rs` | `new`, `MAX_LEN` (`Ident.v`) | `Deref`, `AsRef` (an identifier is its bytes) |
| core `cipher/*` | all (`Channel.v`) | the trait's genericity: there is one cipher; wiping of keys |
| core `key_exchange.rs` | all (`Kex.v`); the `unsafe` reinterpretation of an array of hashes is the concatenation | |
| core `message/**` | every `parse`, `serialize`, signal and message number (`MKex.v`, `MUserAuth.v`, `MChannel.v`, `MSession.v`, `MMessage.v`), `format_sign_data`, the digest chain of `ecdh.rs` (`Kex.v`) | `Debug`; the `into_*` functions that nothing calls |
| ssh `arena.rs` | all (`Arena.v`) | |
| ssh `packet.rs`, `identifier.rs` | all (`Packet.v`, `Ident.v`) | |
| ssh `host.rs` | `handle_new_client`, `Out::send`, `In::recv` (`Host.v`, `Channel.v`, `Rx.v`) | curve genericity (P-256 is the only instance) |
| ssh `auth.rs`, `server.rs` | `Server::start` (`Server.v`), `authenticate_new_client` (`Auth.v`), `Client::start`, `receive`, `send`, `send_channel` (`Session.v`), cancellation by `select!` (`Cancel.v`), failing writes (`Broken.v`), both (`Faults.v`); `Client` await by await (`Async.v`), and logins and `Server::start` (`Login.v`) | fairness of `select!` and of `FuturesUnordered`: every order is allowed |
| ssh `sync.rs` | all (`Sync.v`) | |
| ssh `client.rs` | empty file | |
| `nora_sshd` | the handlers (`Sshd.v`) | `main`, binding the port, the pipes of real children; the drop of an earlier child in `user.shell` |
| `nora_scp` | `-t` and `-f` (`Scp.v`), `main` (`ScpMain.v`) | the text of errors on standard error; reading errors other than end of input |

Simplifications that matter:

* The transport is a byte string that ends. An error while reading and the end of the input are not told apart.
* Writes succeed, except in `Broken.v`: there a transport takes some number of bytes and then fails for good.
  `Faults.v` combines failing writes, cancellation and many connections.
* `Session.v`, `Cancel.v`, `Broken.v` and `Faults.v` go turn by turn: a `send` is one step, or is cut short once.
  `Async.v` goes await by await, with borrows and the lock; C93 and C94 say that this comes to the same, so the
  properties proved of turns hold of it. There, `select!` drops `receive` before the branch's body runs, the
  guards of a dropped future are released, and `Waker`s of the lock are those of `Sync.v` with one task.
* `usize` has 64 bits, and allocation succeeds.
* Authentication of one connection is one event of the server's loop in `Server.v`, `Broken.v` and `Faults.v`.
  In `Login.v` logins too go await by await, next to each other and to sessions; C98-C100 say that this comes to the
  same. There the futures of `FuturesUnordered` are polled in any order, and one that is ready is taken at once.
* A child is its number. What it prints and when it ends are events; all of them are quantified over.

## Findings

Properties that one would expect and that the code does not have are proved false, most for every server or
session rather than by one example (theorems `*_refuted`). In short:

* *Crashes.* All clients share one task, so a panic ends every connection (C63). Before authentication: a bad
  packet length, a wrong second message (C18, C31), any service but `ssh-userauth`, disconnecting at that
  point, unimplemented methods, a password (sshd), a key too long for the signature buffer (C41). Afterwards:
  any message with `todo!`, an unknown channel, a malformed message, data to a channel without a child (C52, C75).
  Commands that are blank or cannot be started (C72). A connection that breaks while a reply is sent during
  authentication (C82).
* *Security.* Any ed25519 key logs in as anyone (C62); nobody needs even that: the key 01 00 .. 00 has a signature
  that is accepted for every message (C108; `verify` instead of `verify_strict`); the host key of the example server comes from seed 0;
  anything of any length is called an acceptable key (C111); the cookie is constant (C33); an all-zero shared secret is accepted (C65), and five
  public values bring it about whatever the server's secret is (C102). A client that computes its public value
  never gets there (C106): refusing the zero would cost nothing.
* *Protocol.* ECDH replies never parse (C06); short padding is accepted (C26); lines before the
  identification confuse the parser (C35); no flow control (C49); data after CLOSE (C48); `stderr` is sent as
  ordinary data (C54); the exit status may follow CLOSE or be missing (C53); signals are reported as status 0
  (C73); the nonce is a 64-bit counter (C66).
* *Lost data.* `write` instead of `write_all` (C50); `select!` drops a half-read packet (C25, C77), a reply
  half written (C78, C81), a child just started (C79), data being handed over (C80).
* *Lock.* Lost wakeups and starvation (C56).
* *scp.* Wrong size and missing zero byte (C58), path traversal (C59), names cut at spaces (C60), `todo!` for
  directories (C70); every error ends with status 0, so a client is told that a broken transfer succeeded (C110);
  through the example server no file with a space in its path can be stored (C112).
