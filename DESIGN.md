# gringo in Rocq: design of the model and of the proofs

The code is hundredwz/gringo (Go), read as text from /repo. Nothing of it is executed.
The model is a set of total, computable Gallina functions, one per Go function, in
`rocq/theories/`. Every model definition carries a comment with the file and lines it models and
with what was simplified.

Contents: 1 files, 2 decisions, 3 how the properties are proved, 4 results per property, 5 what was
found in the code, 6 what is modelled, function by function, and what is not, 7 trusted base,
8 mutation testing.

## 1. Files

Model:

| File | What it models |
|---|---|
| `Base.v` | bytes (`Coq.Init.Byte.byte`), big- and little-endian integers, 32/64-bit wrap-around |
| `GoRT.v` | pieces of the Go runtime: outcomes, `io.ReadFull`, `binary.Read/Write`, `io.LimitReader`, `make`, `time.Time` |
| `Ext.v` | the external code as a record of functions `Ext`, and the laws theorems may assume of it |
| `Siphash.v`, `Cuckoo.v` | cuckoo/siphash24.go, cuckoo/cuckoo.go |
| `PowCodec.v` | consensus/proof.go |
| `Schnorr.v` | secp256k1zkp/schnorr.go, over the curve of `Ext` |
| `Consensus.v` | consensus/block.go, transaction.go, locator.go, difficulty.go, id.go, consensus.go |
| `Messages.v` | p2p/messages.go, helpers.go, protocol.go, the codecs of handshake.go, the read loop of peer.go over any chunking |
| `Chain.v` | chain/chain.go over any storage, storage/mysql.go, the chain of the shipped node |
| `Handshake.v` | p2p/handshake.go, NewPeer and AcceptNewPeer of p2p/peer.go, p2p/server.go |
| `Peer.v` | the goroutines of one peer (p2p/peer.go), as a small-step machine |
| `Start.v` | a peer before it is started, and Start (p2p/peer.go) |
| `World.v` | the pool of Pool.v with the peers of Start.v (p2p/pool.go, p2p/peer.go) |
| `Pool.v` | p2p/pool.go: operations on the tables, and Run with its goroutines as a small-step machine |
| `Sync.v` | p2p/sync.go, cmd/node/main.go |
| `Shutdown.v` | stopping while a message is handled: locks of p2p/pool.go and p2p/peer.go |
| `Serve.v` | a connection from the handshake to its end: the read loop with ProcessMessage in place |
| `Send.v` | the Send functions of p2p/peer.go, the greeting of p2p/pool.go, small functions of all packages |
| `Race.v` | p2p/pool.go, sync.go, peer.go as sequences of lock operations and accesses to shared variables, without data |
| `Relay.v` | several write handlers encoding one block: Less and Swap of consensus/block.go as single accesses |
| `Alloc.v` | what decoding asks make for: the decoders of consensus and p2p once more, with a list of announced sizes (`C87_same` ties them to the first) |

Instances of `Ext`:

| File | What it is |
|---|---|
| `EC.v`, `Instance.v` | `toy`: a curve with 31 points over F_43; meets every law that a theorem assumes |
| `RulesExamples.v` | `mined`: `toy` with a hash that makes a real 42-cycle pass; accepted blocks |
| `Hashes.v`, `Real.v` | `real`: BLAKE2b, SHA-256 and secp256k1 written out and computable; meets every law as well (`C89_codec`, `C89_group`) |
| `Vectors.v` | the repository's own test vectors run on the model with `real`, as checks at build time |

Specifications that do not mention the model's helpers are in `Spec*.v`; lemmas are in `*Proofs.v`;
concrete objects for examples in `*Examples.v`; the property theorems, and nothing else but their
non-vacuity examples, are in `Prop*.v`, each followed by `Print Assumptions`.

## 2. Decisions

* **Go values.** `uintN` is `N` with a range predicate, `int64` is `Z` with wrap-around written
  out, `[]byte` is `list byte` (type-level bytes, so no range hypothesis), a struct is a record,
  a pointer that can be nil is an `option`. Slices are lists; aliasing matters only for the
  in-place `sort.Sort` calls, which return the mutated value as well (and in `Relay.v`, where
  several goroutines share the list).
* **Outcomes.** Every function that can fail returns `res A := Ok | Err | Panic | Fatal`:
  a returned error, a run-time panic (index out of range, `make` length, division by zero, nil
  map write, nil pointer), or `logrus.Fatal` (process exit). Logging is dropped, except where
  computing a log line can crash.
* **Readers.** `io.Reader` is a byte list consumed from the front. That the chunks in which a
  network stream arrives do not matter is proved (`LoopProofs.v`, `ServeProofs.v`), not assumed.
* **External code** is a record `Ext` of functions over which every theorem quantifies: BLAKE2b, the
  codecs and the verifier of github.com/yoss22/bulletproofs, `sort.Sort`, the curve. The laws that a
  theorem needs (`codec_laws`, `codec_safe`, `codec_exact`, `codec_shrinks`, `sort_laws`, `hash_laws`, `curve_laws`) are explicit
  hypotheses of that theorem; `toy` and `real` meet them.
* **Clock, random sources** are arguments. **Storage** (`chain.Storage`) is a record of functions with
  a state. **The order of iteration over a map** is an arbitrary permutation.
* **Goroutines** are threads of small-step machines; theorems hold for every interleaving. Which
  steps are atomic is said at each machine. Memory is sequentially consistent; only the reads and
  writes of `connected` (pool.go), the nonce index (server.go) and list elements (`Relay.v`) are
  split so that races show.

## 3. How the properties are proved

Codecs (C01-C19, C61, C104-C106, C108, C111, C113). Encoders are functions to bytes, decoders are state-passing parsers. Round
trips are composed from `dec (enc x ++ r) = Ok (x, r)`; layouts are tables of offsets; the bit
packing of C03 is proved by bit extensionality; injectivity follows from round trips and lengths;
"never crashes" is an induction over parsers with an outcome predicate. C17 is an induction over
frames and C16 one over chunks.

Proof of work (C20-C25, C100, C114). `findCycleLength` is modelled with its used-flags and fuel; running out of
fuel is a result of its own, proved unreachable (C23). A cycle is "a permutation of the edges
u0v0, u1v0, u1v1, ..."; completeness follows the walk along it, soundness needs that no vertex has
more than two edges, and the refutation is a list of nonces for the real SipHash.

Consensus rules (C26-C33, C62-C64, C76-C78, C115, C122). Equivalences by case analysis; `sort.IsSorted` is
related to `StronglySorted`; the difficulty is computed in closed form for symbolic windows.

Chain (C34-C41, C103, C123, C125). Functions over an arbitrary storage; `Validate` is a fuelled loop related to an
inductive relation; C36 composes codec, difficulty and chain; C123 adds up what accepted blocks imply, along a line of them; C125 is about the first one.

Peers and pool (C42-C50, C54, C66-C70, C74, C75, C98, C99, C107, C109, C110,
C116, C117, C124, C126, C128-C135, C137, C140-C143). Invariants of small-step machines over any
schedule; refutations are schedules, or show that no schedule helps; C98 and the positive part of C75
follow chosen steps along which a measure decreases. C99 composes the write handler with the read loop
of the other side. C140-C143 are about endless runs under fairness (`SpecFair.v`, `SpecSelect.v`, `SpecTeam.v`, `SpecShutAll.v`): measures that never grow and
shrink when a given goroutine takes a step. C110 inverts the parsers of the handshake, with their panics.

Messages handled (C51-C53, C71-C73, C79-C85, C102, C112, C120, C124, C126, C136, C139). `ProcessMessage` is a function from node, context and
message to node, answers, relays and way of ending; `serve` composes it with the read loop, for any
chunks and any activity of other goroutines between messages.
`Names.v` (C139) transcribes from Go's library how IPv4 endpoints are written and resolved; elsewhere these are arbitrary functions.

Races (C95-C97, C121, C138). Executions of lock operations and single accesses; happens-before as in the Go memory
model; a per-variable lock discipline, and a lock order, are invariants. This also justifies that
`Pool.v` treats critical sections as single steps where they access only what their mutex protects;
notConnected, Peers and the goroutines that relay a block read records without their locks, so they are
split into single reads (C107, C117, C120), connectPeer writes a record in two steps (C109), and the check of connectPeer is one step by C116.
That the other sections under ptmu, cpmu and bnmu are one step each is C121, proved of the executions of Race.v.
C127 relates the two machines: each step of Pool.v is a list of events of one goroutine of Race.v, which writes
what the step changes, and the same locks are held afterwards.

One block, several writers (C86, C119). The library's sort is a tree of Less and Swap calls; writers take
single steps on a shared list. `GoSort.v` transcribes from Go's library, which is not in /repo, how its
sorts before and from release 1.19 on treat a list that is in order; other branches are arguments.

Cryptography (C55-C60, C89-C92, C101, C118). Signing and verification in any group with the curve laws
(C55-C60). That secp256k1 is such a group is proved, without counting its points: `Pocklington.v` and
`SecpPrimes.v` certify the two primes, `PrimeField.v` makes the field, `GroupLaw.v` proves the group
law of y^2 = x^3 + b with no 2-torsion over any field through formulas that hold in all cases,
`SecpGroup.v` relates the Jacobian arithmetic of `Real.v` to it, and `Cyclic.v` shows that a group with
fewer than 3n elements, none of order 2, and an element of prime order n has exactly n elements.
So C55-C58 hold of secp256k1 with no hypothesis. C90-C92 are what follows algebraically about
commitments and nonces, C101 which signature bytes decode to a point of the curve. No claim is made that something is hard to compute.

When a property turned out false, its manifest entry is `partial`, its note begins with REFUTED, and
it names the `_refuted` theorems together with what is true instead: `_partial` theorems or an exact
characterisation. The statement in `properties.jsonl` keeps the full claim.

## 4. Results

| Property | Status | Theorems | Note |
|---|---|---|---|
| C01 Block header wire round-trip | proved | `C01_header_roundtrip` | Every well-formed header (graph sizes 1..64) and trailing bytes. |
| C02 Block header wire layout | proved | `C02_header_layout` | Every typed header with 32-byte hashes and 42 nonces. |
| C03 Proof-of-work nonce packing round-trip | proved | `C03_packing_roundtrip`, `C03_packing_layout` |  |
| C04 Block hash determines the proof of work | proved | `C04_hash_determines_pow`, `C04_zero_edge_bits_refuted`, `C04_new_proof_refuted` | Collision made explicit; the graph-size-0 exception of the statement is C04_zero_edge_bits_refuted; NewProof makes such proofs. |
| C05 Wire headers are not malleable | partial | `C05_malleable_refuted`, `C05_reencoding`, `C05_not_malleable_partial` | REFUTED as stated: every header with graph size above 32 or not a multiple of 4 has two encodings. Exact re-encoding behaviour proved for all accepted byte strings. |
| C06 Block wire round-trip | proved | `C06_block_roundtrip` | For any sort and codecs meeting the laws in Ext.v. |
| C07 Transaction wire round-trip | partial | `C07_with_inputs_refuted`, `C07_feature_byte_refuted`, `C07_no_inputs_partial` | REFUTED for every transaction with an input; proved without inputs. |
| C08 Transactions accepted from the wire are sorted and bounded | proved | `C08_accepted_sorted_bounded`, `C08_wire_iff_sorted` |  |
| C09 Compact block wire round-trip | proved | `C09_compact_roundtrip`, `C09_count_wraps_refuted` | Fewer than 256 outputs and kernels; counts wrap from 256 on (second theorem). |
| C10 Locator and header-request round-trip and bound | proved | `C10_locator_roundtrip`, `C10_long_locator_refused`, `C10_received_locator_bounded` |  |
| C100 Every accepted proof of work contains a cycle | proved | `C100_cuckaroo_contains_cycle`, `C100_cuckoo_contains_cycle`, `C100_cuckaroo_digest` | No hypothesis on degrees; the case is a proof that is not itself a cycle (C22). |
| C101 Decoded signatures carry a point of the curve | partial | `C101_off_curve_refuted`, `C101_exactly_partial`, `C101_signed_partial` | REFUTED: the coordinate is neither reduced nor checked to be on the curve. Proved: which bytes give a point, and that signatures made by SignMessage do. ModSqrtFast is not at hand; [real] takes the power (p+1)/4 of squares and non-squares alike. |
| C102 A peer that is asked answers with what it was asked for | proved | `C102_block`, `C102_headers`, `C102_same_limit`, `C102_block_length`, `C102_logged` | The converse of C84: nobody sends these requests, but they work. That the stored items can be encoded is a hypothesis (C52). |
| C103 A genesis block identifies its network | partial | `C103_shared_refuted`, `C103_told_refuted`, `C103_distinct_partial` | REFUTED: Testnet1, Testnet2 and Mainnet have the hash of the empty string, and the shipped node, on Testnet1, announces Testnet4. Proved: Testnet3 and Testnet4 have hashes of their own, computed with BLAKE2b. |
| C104 Encodings do not depend on the order of items | partial | `C104_order_refuted`, `C104_block_partial`, `C104_transaction_partial`, `C104_compact_partial` | REFUTED: outputs are sorted by a hash without the range proof, so two outputs that differ in the proof only stay in the order they are held in (witness on the real curve). Proved: there is no other exception but BLAKE2b collisions among the items at hand. |
| C105 Control messages have exactly one encoding | proved | `C105_control`, `C105_addresses`, `C105_address` | Together with C05 (headers) this says which messages are malleable. Surplus bytes behind a message in a frame are ignored by the loop (C16). |
| C106 A stream of frames can be read in only one way | proved | `C106_frames`, `C106_messages` | Frames of at most 20000000 bytes, the limit of the reader. |
| C107 Run dials new and disconnected addresses first, failed ones otherwise | partial | `C107_first_refuted`, `C107_picked`, `C107_undisturbed_partial`, `C107_dials`, `C107_starved` | REFUTED for interleavings: notConnected reads the records one after the other without their locks. C107_picked is what holds of every execution, C107_undisturbed_partial is the claim when no status changes during the scan. The status may also change between the choice and the dial; C70 covers that. |
| C108 Which messages can be written | proved | `C108_exactly`, `C108_received` | Exact, for all fourteen message types. The message is built in memory, so the length of a connection's buffer plays no role. |
| C109 The table says what peers said, and only addresses that were connected to are handed out | partial | `C109_connected`, `C109_told`, `C109_taken_on`, `C109_recorded`, `C109_between`, `C109_stale_refuted`, `C109_handed_out` | REFUTED between the two steps that write a record: it has the capabilities of an earlier connection, and Peers hands them out. C109_recorded and C109_between say that there is no other exception. Height and total difficulty are overwritten by messages (C51, C53); the theorem follows version and capabilities. |
| C11 Control message round-trips | proved | `C11_ping`, `C11_get_peer_addrs`, `C11_peer_error`, `C11_headers`, `C11_all_messages` | Every sendable message of every type. |
| C110 What a handshake makes of its input | proved | `C110_dial`, `C110_hand`, `C110_listen`, `C110_crash` | Exact for all inputs. Input means everything the other side will ever send; a connection that stays open without sending is C88. |
| C111 How reading from a peer ends | proved | `C111_always`, `C111_understood`, `C111_refused`, `C111_reason`, `C111_ends`, `C111_crash` | Strengthens C18 and C19 from single decoders to the whole stream. With which error a frame is refused is decode_frame; the stream is everything the other side will ever send. |
| C112 What the shipped node says | proved | `C112_answers`, `C112_wire`, `C112_blocks` | The genesis constants of Testnet1 enter here. Which of the answered messages can reach the handler is C79 and C111. |
| C113 The wire format of every message | proved | `C113_layout`, `C113_read` | Fixes the format itself, which the round trips of C06-C13 leave open. Points and range proofs are written by the external library (codec_laws); the packed nonces are C02 and C03. IPv6 addresses: C12. |
| C114 What passes as a proof of work without being a cycle | proved | `C114_cuckaroo_trail`, `C114_cuckoo_trail`, `C114_cuckaroo_lollipops`, `C114_cuckoo_lollipops`, `C114_not_cycles` | Says from both sides what C22 leaves open. The converse is for lists without equal edges; between the two conditions lie trails that meet themselves elsewhere. |
| C115 Which check a block fails first | proved | `C115_header`, `C115_block`, `C115_child`, `C115_one_answer`, `C115_accepted`, `C115_suffices` | Refines C26, C29 and C35 from acceptance to the answer given, and states the header's proof of work without the verifier or the encoder. The gap between C115_accepted and C115_suffices is that of C114. |
| C116 The record being dialled is not connected | proved | `C116_not_connected`, `C116_marks` | Justifies that the two reads at pool.go:221 are one step of the model. |
| C117 Peers filters what it returns, also while records change | partial | `C117_filter_refuted`, `C117_interleaved`, `C117_undisturbed` | REFUTED: a failed address that is being banned is returned. C117_interleaved is what holds of every execution; run alone, the function is that of C49. |
| C118 Half of all nonces make signatures that do not survive being sent | proved | `C118_one_of_two`, `C118_half`, `C118_secp_refuted` | Quantifies the loss that C56 characterises for one nonce. |
| C119 A valid block is relayed intact whichever Go built the node | partial | `C119_old_refuted`, `C119_old_short`, `C119_new`, `C119_new_unsorted_refuted` | REFUTED for Go before 1.19. The library is not in /repo: what it does on lists in order is transcribed in GoSort.v; what it does on others is universally quantified. /repo does not pin a toolchain; its dependencies are of December 2018. |
| C12 Peer address round-trip | partial | `C12_ipv4_partial`, `C12_ipv6_exactly`, `C12_ipv6_refuted`, `C12_other_lengths_fatal` | REFUTED for every IPv6 address except ::; proved for IPv4. |
| C120 A relayed block goes to peers that are behind, whatever happens meanwhile | partial | `C120_echo_refuted`, `C120_other_refuted`, `C120_missed_refuted`, `C120_alone`, `C120_reads`, `C120_sent` | REFUTED in three ways; C120_reads and C120_sent are what holds of every execution, C120_alone reduces reads at once to C73. |
| C121 Critical sections of the pool's mutexes are atomic | partial | `C121_atomic_partial`, `C121_contents`, `C121_scan_refuted` | REFUTED for the scans of the table; C121_atomic_partial covers the sections that only use the map of their mutex, C121_contents says what else happens in sections. Not covered: sections that start goroutines (PropagateBlock, Run after Stop), in each of which the map is read once. Justifies the single steps of Pool.v for Add, Ban, IsBan, lookups and ConnectedPeers. |
| C122 A chain whose blocks declare what they have to keeps its difficulty | partial | `C122_half`, `C122_decay_refuted`, `C122_fades_refuted`, `C122_any_start`, `C122_more_refuted` | REFUTED; C122_half is the exact rule where nothing overflows. |
| C123 Lines of accepted blocks are linked, add up, and are no more than the seconds there were | proved | `C123_time`, `C123_work`, `C123_linked` | About blocks that ProcessBlock accepts; the node does not make them its head, and accepts none as decoded from the wire (C36). |
| C124 A full peers table makes room for new addresses | partial | `C124_permanent`, `C124_frozen_refuted`, `C124_eclipsed_refuted`, `C124_flood_refuted`, `C124_closed` | REFUTED. About BannedPeers as shipped, which is nil (C50): Ban ends the process before it deletes. |
| C125 The first block after each network's genesis block is later and adds its work | partial | `C125_first`, `C125_real`, `C125_adds_nothing`, `C125_adds_work_refuted` | REFUTED that a first block adds work; the conditions are exact, for each of the five networks, with BLAKE2b computed in the kernel. The witness uses the instance with a mined proof, whose hash is not BLAKE2b; C125_adds_nothing is about BLAKE2b. |
| C126 A peer that does not read is given up | partial | `C126_waits_refuted`, `C126_frozen_refuted`, `C126_pile_refuted`, `C126_relays_refuted`, `C126_free_refuted`, `C126_drain_partial` | REFUTED: writes have no deadline. C126_drain_partial: if writes return, all waiting sends can. The peer's machine and the node that relays are two models; C126_relays counts the goroutines that the second starts for a connection of the first. A fraction of the bytes of a write that does not return may be on the wire in fact; the model has none. |
| C127 What the pool's goroutines do step by step is what they do access by access | proved | `C127_accessed`, `C127_left_out` | Both machines are models of the same code, so this checks them against each other: a write, lock or goroutine that one has and the other lacks would show. That the accesses only read is not checked by it. C127_left_out says which steps of the pool's machine are not covered. |
| C128 Once a disconnect has begun, everything ends, whatever the schedule | proved | `C128_bounded`, `C128_one_more`, `C128_ends`, `C128_ends_well` | No fairness is assumed: the bound is on every execution. Steps are those of the machine; a read or write of the connection returning is one of them (that it returns once the connection is closed is Go's net package). A message makes the handler start at most one send (C81). |
| C129 A peer that is used before it is started | proved | `C129_as_if`, `C129_before`, `C129_unused`, `C129_ends` | Extends what is proved of started peers (C43, C45, C98) to all peers. Start is one step. |
| C13 Handshake message round-trip and version check | proved | `C13_hand`, `C13_shake`, `C13_other_versions_refused` |  |
| C130 The pool together with its peers | proved | `C130_parts`, `C130_exact`, `C130_limit`, `C130_cleaned` | Ban's call of Close may return at any time, and the one after Stop once some Close of its peer has. A handler past its loop may still have to run Disconnect. |
| C131 After Stop no connection is left over | proved | `C131_told`, `C131_over`, `C131_made_map_refuted` | For the code as shipped, whose map of banned addresses is never made. That Run and the closing goroutines end is not part of it (C54, C88). |
| C132 A call of Ban returns, and then the address is recorded | partial | `C132_recorded`, `C132_stays`, `C132_never_returns_refuted`, `C132_alone` | REFUTED as shipped: a call of Ban for a listed address never returns, under any schedule. With a made record of bans every call that returns has recorded the address (C132_recorded), and it stays recorded. C132_alone ties the sequential pool_ban of Sync.v to the steps of Pool.v. |
| C133 What a connection does to the pool are steps of the pool | proved | `C133_message`, `C133_connection` | Messages are handled while nobody else is in the middle of a call of Ban or holds ptmu or the lock of the record; interleavings inside one call are those of Pool.v (C117, C124, C132). |
| C134 What a shake announces is what the record holds | proved | `C134_dead`, `C134_recorded` | pool.go:232-234 is dead code. C134_recorded follows Run alone; C109 says what happens in every interleaving. |
| C135 Stop can bring everything to its end, but for three known cases | proved | `C135_can_stop`, `C135_exact`, `C135_self_ban_refuted`, `C135_no_peer_refuted` | That everything can come to its end, not that the scheduler brings it there. C135_exact shows that the conditions are needed (but for the one on encoding, which rules out a crash of the write handler). |
| C136 How the handling of a message ends | proved | `C136_endings`, `C136_unlisted`, `C136_zero_refuted` | Handled while nobody else changes the node (C133 says how that fits the interleavings). That no message takes the node down is false (C52, C80); this says exactly which do. |
| C137 Attempts are given up, bans go through and Stop succeeds for known reasons only | proved | `C137_given_up`, `C137_gone_on`, `C137_ban`, `C137_stop` | The version reason never occurs (C134). |
| C138 Which goroutine touches which shared variable | proved | `C138_writes`, `C138_reads`, `C138_unread`, `C138_counter` | The goroutines of Race.v, in which any branch may be taken; the reads of main leave out the capabilities, which only the model's merged scan reads. |
| C139 An endpoint is listed under one name, by which a ban reaches it | partial | `C139_text`, `C139_resolves`, `C139_injective`, `C139_names`, `C139_remote`, `C139_ban`, `C139_refused`, `C139_unbanned_refuted`, `C139_twice_refuted`, `C139_double_refuted`, `C139_gossip` | REFUTED for names in other notations than the usual one; proved for those. (*net.TCPAddr).String and net.ResolveTCPAddr are Go's library, which is not in /repo: Names.v transcribes them for IPv4 and leaves everything else arbitrary. C139_names discharges what C124 assumes of them. |
| C14 Two gringo nodes can shake hands | partial | `C14_both_ends_refuted`, `C14_dialler_fails_refuted`, `C14_conforming_partial` | REFUTED for every pair of nodes; a peer that sends its genesis hash is understood. |
| C140 Under a fair scheduler, a peer that begins to end ends | proved | `C140_ends`, `C140_calls`, `C140_possible`, `C140_ban_refuted` | Weak fairness, and only where Go gives it: nothing is asked of a goroutine that waits for a message, for an open connection, or for the handler of a message. A write or a read on a closed connection is taken to return (net.Conn). C140_possible shows that fairness asks for nothing that cannot be done, C140_ban_refuted that the exception is needed. |
| C141 After Stop, Run stops and makes no further attempts | partial | `C141_stops`, `C141_returns`, `C141_select_refuted` | REFUTED as stated; C141_stops is what holds, with the fairness of the scheduler and of the select as explicit hypotheses (C88_progress_partial shows that Run can always take a step where run_fair asks for one, C88_silent_refuted what happens if NewPeer does not return). |
| C142 Under a fair scheduler, a connection of the pool that begins to end is cleaned up | proved | `C142_run`, `C142_ends`, `C142_cleaned`, `C142_possible` | The hypotheses are those of C140 for one peer, that nothing crashes, and for C142_cleaned that the goroutine that cleans up is not left waiting (cleaner_fair). As shipped they cannot hold once the read handler bans its own peer (C140_ban_refuted). C142_possible shows that they can hold together from any state that C135_can_stop covers. |
| C143 After Stop, under a fair scheduler, every goroutine that Run starts to close connections ends | proved | `C143_stop`, `C143_each`, `C143_connection`, `C143_listed`, `C143_possible`, `C143_handled_refuted` | The fairness is stated in SpecShutAll.v: that of C140 for every peer (peers_fair), that of C141 for Run, and for each closing goroutine that it calls Close when it gets there (closer_calls) and is otherwise not left waiting but for Close to return (closer_fair), which excludes a record lock that is never released. The deadlock of C75 is excluded by the condition that the handling of each message ends, which cannot be left out (C143_handled_refuted). A record that never had a connection makes the goroutine panic (C135), which the condition that nothing crashes excludes. |
| C15 Message framing round-trip | proved | `C15_roundtrip`, `C15_bad_magic`, `C15_other_type`, `C15_too_long`, `C15_incomplete_header` |  |
| C16 A frame is consumed whole | partial | `C16_loop`, `C16_handshake_refuted` | REFUTED for the handshake reader; proved for the connected peer's read loop, every stream and chunking. |
| C17 The read loop delivers exactly the frames sent, in order | proved | `C17_delivery` | Every list of sendable messages and every chunking. |
| C18 Decoders of the listed messages never crash on hostile bytes | proved | `C18_consensus_decoders_safe`, `C18_decoders_safe`, `C18_loop` | Every byte string and every chunking; external decoders (curve points, range proofs) are assumed not to crash (codec_safe). |
| C19 No message from a peer crashes its decoder | partial | `C19_compact_block_refuted`, `C19_hand_refuted`, `C19_shake_refuted`, `C19_peer_error_refuted`, `C19_loop_refuted` | REFUTED: exactly the announced lengths above 2^48 panic (hand, shake, PeerError); a compact block frame crashes the read loop. |
| C20 Accepted proofs of work use valid nonces | proved | `C20_cuckaroo_nonces_valid`, `C20_cuckoo_nonces_valid` | All keys, sizes and nonce lists, both variants. |
| C21 Every genuine cycle is accepted | proved | `C21_cuckaroo_cycles_accepted`, `C21_cuckoo_cycles_accepted`, `C21_cuckaroo_digest` | All cycle lengths, labellings and edge orders, both variants. |
| C22 Only genuine cycles are accepted | partial | `C22_only_cycles_refuted`, `C22_cuckoo_only_cycles_refuted`, `C22_cuckaroo_sound_partial`, `C22_cuckoo_sound_partial` | REFUTED as stated: 42 nonces forming a 10-cycle with a 32-edge tail are accepted. Proved: an accepted proof is a cycle exactly if no vertex lies on more than two of its edges; C100 says what every accepted proof is. |
| C23 Cycle search terminates within the proof size | proved | `C23_search_terminates` | Every edge list. |
| C24 SipHash matches its specification | proved | `C24_siphash`, `C24_siphash_block` | Every 64-bit key and nonce (block variant: nonces below 2^64-64; callers pass 32-bit nonces). |
| C25 Edge endpoints are in range | proved | `C25_cuckaroo_edges_in_range`, `C25_cuckoo_edges_in_range` | Every key, size and 32-bit nonce. |
| C26 Header validation accepts exactly the header rules | proved | `C26_header_validate`, `C26_accepted_nonces`, `C26_cycle_accepted` | Iff over every header that can come off the wire; the accepted example is a real 42-cycle in a 2^29-edge Cuckaroo graph. |
| C27 Block version schedule | proved | `C27_versions`, `C27_unique`, `C27_none_after` |  |
| C28 Far-future blocks are refused | partial | `C28_far_future_partial`, `C28_overflow_refuted`, `C28_witness_refuted` | REFUTED: wire times above 2^63-1-62135596800 wrap to the distant past and are accepted; proved for every smaller wire time. |
| C29 A valid block obeys the block rules that are implemented | proved | `C29_block_validate` |  |
| C30 A valid block obeys the full consensus rules | partial | `C30_repeated_refuted`, `C30_unsigned_kernel_refuted`, `C30_no_coinbase_refuted`, `C30_duplicates_refuted`, `C30_weight_refuted`, `C30_coinbase_signed_partial` | REFUTED: what block validation does not check, with accepted blocks for each; coinbase kernels are signed. |
| C31 Difficulty adjustment responds to block times | partial | `C31_times_ignored_refuted`, `C31_closed_form` | REFUTED: the block times have no influence; closed form proved. |
| C32 Proof difficulty is at least the minimum | partial | `C32_difficulty`, `C32_zero_refuted`, `C32_panic_refuted`, `C32_to_difficulty` | REFUTED for zero hashes; formula proved otherwise. |
| C33 Headers from the wire never terminate the process | proved | `C33_header_safe`, `C33_block_safe` |  |
| C34 Chain state changes only through accepted blocks | proved | `C34_unchanged` |  |
| C35 Block acceptance against the parent | proved | `C35_known_parent`, `C35_unknown_parent`, `C35_zero_parent_panics` | Also: unknown parent = block validation only; a parent proof hash with 64 leading zero bits panics. |
| C36 Blocks received from peers can extend the chain | partial | `C36_too_easy_refuted`, `C36_witness_refuted` | REFUTED for every wire block with a stored parent and non-empty window. |
| C37 Header responses | proved | `C37_responses`, `C37_bound` |  |
| C38 Chain validation accepts only chains of valid blocks | partial | `C38_exactly`, `C38_outcomes`, `C38_invalid_parent_refuted`, `C38_invalid_child_refuted`, `C38_diverges_refuted`, `C38_fresh_refuted`, `C38_fresh_fatal_refuted` | REFUTED both ways; it can diverge, and it fails on the chains that the program creates. The exact condition for nil, and the other outcomes, are proved for every chain. |
| C39 Restart restores the stored tip | proved | `C39_opened`, `C39_restart` |  |
| C40 Total difficulty grows along accepted blocks | partial | `C40_total_partial`, `C40_equal_refuted`, `C40_wraps_refuted` | REFUTED: zero proof difficulty and 64-bit wrap; proved: no decrease unless the sum wraps. |
| C41 Storage returns what was added | partial | `C41_stores_nothing_refuted` | REFUTED: the only backend is a stub. |
| C42 Connections to ourselves are detected | proved | `C42_cycle`, `C42_any_schedule`, `C42_alone`, `C42_refused`, `C42_self_dial` | Any number of concurrent handshakes; racing reads of the index may return any value stored so far. |
| C43 Disconnect happens once and waits for both handlers | proved | `C43_once`, `C43_waited`, `C43_no_deadlock` | Any number of goroutines and any schedule. |
| C44 Banning a misbehaving peer completes | partial | `C44_waits_for_itself_refuted`, `C44_nil_map_refuted`, `C44_never_recorded_refuted`, `C44_never_returns_refuted` | REFUTED under every schedule. |
| C45 Messages are written whole and in order | proved | `C45_wire`, `C45_send_returns` | Any number of senders and any schedule; a failed write may leave part of one last frame. |
| C46 Connection limit | proved | `C46_limit` | Over every schedule of the model of Pool.v. |
| C47 Connection slots are not leaked | partial | `C47_slots_partial`, `C47_never_back_refuted`, `C47_idle_refuted`, `C47_dead_refuted`, `C47_one_peer_refuted` | REFUTED: slots leak and never come back; the accounting of slots is proved. |
| C48 Peers table is bounded and has unique addresses | proved | `C48_table`, `C48_always`, `C48_keeps`, `C48_only`, `C48_all`, `C48_10000_refuted` | The bound is 10001 and is reached. |
| C49 Peer lists handed out respect filter and size | proved | `C49_peers`, `C49_added`, `C49_unheard` |  |
| C50 Banned addresses are not used again | partial | `C50_never_recorded_refuted`, `C50_crash_refuted`, `C50_dialled_again_refuted`, `C50_ignored_refuted` | REFUTED: bans are never recorded (nil map) and would not be consulted. |
| C51 Message handling answers and records correctly | proved | `C51_ping`, `C51_pong`, `C51_get_headers`, `C51_get_block`, `C51_get_peers`, `C51_peers`, `C51_silent`, `C51_chain` | The handler runs alone: interleavings are in Peer.v and Pool.v. |
| C52 No message terminates the node | partial | `C52_tx_refuted`, `C52_refused_refuted`, `C52_own_refuted`, `C52_otherwise_partial`, `C52_answers_partial`, `C52_genesis_refuted` | REFUTED: transactions, refused headers and blocks, genesis block requests; proved for everything else. |
| C53 Recorded peer height is monotone under block messages | partial | `C53_record_partial`, `C53_lowered_refuted` | REFUTED; the exact update is proved. |
| C54 Stopping the pool closes connections cleanly | partial | `C54_never_closed_refuted`, `C54_crash_refuted`, `C54_clean_partial` | REFUTED for any entry that never had a connection; possible for tables where each had one. |
| C55 Schnorr signatures verify | proved | `C55_signatures_verify`, `C55_signature_equation`, `C55_verify_exactly` | In any group meeting the curve laws of SpecSchnorr.v. |
| C56 Serialised signatures verify | partial | `C56_serialised_exactly`, `C56_serialised_refuted`, `C56_decoder` | REFUTED as stated; exact characterisation proved for all keys, messages and nonces not divisible by the order. |
| C57 Signatures are not malleable | partial | `C57_malleable_refuted`, `C57_scalars_exactly`, `C57_kernel_refuted` | REFUTED for every accepted signature; the accepted scalars are characterised exactly. |
| C58 Pedersen commitments are homomorphic | proved | `C58_homomorphic`, `C58_modulo_order`, `C58_commit_zero`, `C58_negation` |  |
| C59 Kernel message and key encodings are injective | proved | `C59_message_layout`, `C59_message_injective`, `C59_key_layout`, `C59_key_encoding` |  |
| C60 Random scalars are valid | partial | `C60_order_returned_refuted`, `C60_first_draw_partial`, `C60_returns` | REFUTED: n itself is returned. |
| C61 Short identifiers | proved | `C61_short_id`, `C61_short_hash_panics` |  |
| C62 Accepted blocks are valid | partial | `C62_accepted_valid_partial`, `C62_same_hash_refuted`, `C62_node_refuted`, `C62_node_wire_partial` | REFUTED: blocks with the hash of the head are not validated; proved otherwise, and, up to collisions, for blocks the shipped node gets from peers. |
| C63 Block hashes commit to the block | partial | `C63_only_proof_refuted`, `C63_own_parent_refuted` | REFUTED: only the proof is hashed. |
| C64 Header batches | proved | `C64_batch`, `C64_first_error`, `C64_unlinked_refuted` |  |
| C65 Nodes of other chains are refused | partial | `C65_listener_refuted`, `C65_dialler_refuted` | REFUTED for every genesis hash. |
| C66 Failed handshakes release the connection | partial | `C66_never_closed_refuted`, `C66_every_dial_refuted` | REFUTED. |
| C67 Close returns only after the connection is closed | partial | `C67_close_early_refuted`, `C67_winner_partial`, `C67_unstarted_refuted` | REFUTED for a caller that loses the compare-and-swap, and for one that calls before Start; proved for the winner otherwise. |
| C68 Connection counter is exact | partial | `C68_drift_refuted`, `C68_sinks_refuted`, `C68_bound_partial`, `C68_range_partial` | REFUTED: lost updates in both directions; at most 16 (reached), and at least minus the number of connections made. |
| C69 ConnectedPeers holds the live connections | partial | `C69_forgotten_refuted`, `C69_up_partial` | REFUTED: a reconnect can be forgotten; one inclusion proved. |
| C70 At most one connection per table entry | proved | `C70_once` |  |
| C71 Only accepted blocks are relayed | partial | `C71_accepted_partial`, `C71_refused_refuted`, `C71_invalid_refuted` | REFUTED; proved when the reported address is in the table. |
| C72 New blocks on top of the chain are relayed | partial | `C72_height_refuted`, `C72_shipped_refuted` | REFUTED for every history. |
| C73 Blocks are relayed to those that are behind, not to the sender | proved | `C73_relay` | The claim is about records read at once, which C120_alone makes precise; what happens when the goroutines read them later is C120. |
| C74 The peer of a handler is in the table | proved | `C74_listed` | With the nil ban map of the code. |
| C75 Stopping does not deadlock with a message being handled | partial | `C75_stuck_refuted`, `C75_happens_refuted`, `C75_otherwise_partial` | REFUTED when the closing goroutine takes the lock while the read handler waits for it; otherwise the connection can always be closed and the lock comes back. |
| C76 A header belongs to one block | partial | `C76_parts_refuted`, `C76_chain_refuted` | REFUTED for all valid blocks. |
| C77 Valid blocks create no money | partial | `C77_balance_refuted` | REFUTED from every valid block. |
| C78 Blocks carry the work they declare | partial | `C78_overdeclared_refuted`, `C78_below_target_refuted`, `C78_declared_partial` | REFUTED; the declared difficulty is at least the target. |
| C79 A connection is served frame by frame | proved | `C79_served`, `C79_chain`, `C79_complete` | Assumes the peer is not disconnected meanwhile and the write handler takes the answers; those are in C43-C45. |
| C80 No connection takes the node down | partial | `C80_dial_refuted`, `C80_otherwise_partial` | REFUTED by a complete attack; what breaks the node otherwise is characterised. |
| C81 Answers are bounded by what was received | proved | `C81_bounded` | For the storage of the repository. |
| C82 Connections that were accepted are served | partial | `C82_accepted_refuted` | REFUTED. |
| C83 Greeting a peer tells it the sender's state | partial | `C83_ping_refuted`, `C83_pong_partial` | REFUTED for the greeting; the pong is proved to carry the state. |
| C84 A node that lags behind asks for what it lacks | partial | `C84_never_asks_refuted` | REFUTED. Relayed blocks, the only other messages queued, are not requests. |
| C85 Addresses spread | proved | `C85_gossip` | For addresses that resolve to IPv4; IPv6 addresses do not survive the wire format (C12). |
| C86 A block relayed to several peers reaches each of them intact | partial | `C86_race_refuted`, `C86_sorted_refuted`, `C86_valid_partial`, `C86_calm_partial`, `C86_single_partial` | REFUTED. The library's sort is modelled as a tree of Less and Swap calls; only its insertion sort, used for short lists, is modelled in full; C119 says what its sorts do on longer lists in order. Accesses to one element are single steps. |
| C87 Decoding asks for memory in proportion to what was received | partial | `C87_same`, `C87_frame`, `C87_messages_partial`, `C87_loop_partial`, `C87_frame_refuted`, `C87_block_refuted`, `C87_hand_refuted`, `C87_shake_refuted`, `C87_error_refuted`, `C87_compact_refuted` | REFUTED for hands, shakes, errors and compact blocks, whose announced lengths are not limited, and for the buffer of the read loop, made before the body is there. Proved: all other messages, and the read loop without compact blocks, are bounded by the bytes received plus a constant. Makes of a fixed size and those inside the external decoders are not counted; [codec_shrinks] (external decoders return no more bytes than they got) is a hypothesis, met by the real and the toy codecs. |
| C88 A silent address does not stop the pool | partial | `C88_silent_refuted`, `C88_alone_refuted`, `C88_unread_refuted`, `C88_progress_partial`, `C88_stop_partial` | REFUTED: no deadline is set, and Run itself waits for the shake, and for the first ping to be written. Proved: Run gets stuck nowhere else, and after Stop it can always end if NewPeer and that write return. |
| C89 The constants of the curve define a group of prime order | proved | `C89_primes`, `C89_group`, `C89_cyclic`, `C89_codec`, `C89_signatures`, `C89_verify_exactly`, `C89_homomorphic`, `C89_block_roundtrip` | No law and no number of points is assumed: primality by certificates, the group by the formulas, cyclicity by counting cosets. The arithmetic of the library is not at hand; [real] computes the curve from the constants. |
| C90 Commitments hide the amount perfectly | proved | `C90_hiding` | Stated as a bijection between blinding factors; no probability is modelled. |
| C91 A commitment fixes its amount | partial | `C91_binding_refuted`, `C91_reduction_partial` | REFUTED as it stands, as for any hiding commitment; reduced to the discrete logarithm of H. That nobody can compute it is not proved. |
| C92 One nonce for two messages reveals the key | proved | `C92_nonce_reuse`, `C92_extraction` |  |
| C93 Reading ends at the first bad frame | proved | `C93_stops` |  |
| C94 Every list received is bounded | proved | `C94_decoded`, `C94_delivered` | The ids of a compact block, the agent string of a handshake and the text of an error are limited only by the frame. |
| C95 The maps of the pool are not raced for | proved | `C95_race_free` | Race.v leaves data out: every branch and every record may be taken, so its executions include those of the code. Channels are not counted as ordering anything. |
| C96 Nothing in the pool is raced for | partial | `C96_races_refuted`, `C96_races_partial` | REFUTED: an execution of two peers, one of which reconnects while the other sends a block and asks for addresses, has all six races; it follows a path of the code. Proved: no others. |
| C97 The mutexes alone never deadlock | proved | `C97_no_mutex_deadlock`, `C97_waits_end` | Channels, WaitGroups and the network are taken to return; the deadlocks through those are C44, C50, C54 and C88. |
| C98 A peer can always be brought to its end | proved | `C98_can_end`, `C98_ended` | Possibility, over every reachable state: that a network read or write returns is a step that may be taken. The ban is C44. |
| C99 What one side queues is what the other side's loop passes on | proved | `C99_end_to_end`, `C99_any_messages` | Composes the write handler (C45) with the read loop (C17). TCP is taken to deliver a prefix of what was written. |

## 5. Found in the code

Each of these is a theorem; the property is in brackets.

* A block's hash covers only its proof of work, so a block that copies the proof of the head is
  accepted without validation, and is relayed [C62, C63, C71].
* The difficulty is not transmitted, so every block from a peer whose parent is stored is refused as
  too easy once the window is not empty; the node's storage is a stub and its chain never advances
  [C36, C41, C72].
* Validation ties neither the lists of a block to its header nor inputs to outputs, and declared
  work is not compared with the proof [C76-C78, C30].
* `findCycleLength` accepts 42 edges that contain a shorter cycle with a tail [C22].
* Block times do not influence the difficulty [C31], which halves every 71 blocks down to 1 [C122]; times far in the future wrap [C28].
* Transactions with inputs and IPv6 addresses do not survive the wire [C07, C12].
* Two gringo nodes cannot shake hands; nodes of other chains are not refused [C14, C65]. Three of the five
  genesis blocks have one hash, and the node announces another network than its own [C103].
* 134 bytes from any address that the node dials make it panic (transaction, nil mempool) [C80].
  So do announced lengths above 2^48, 35 bytes in a shake [C110], and some compact blocks [C19], refused headers or blocks from a
  listed address [C52], and any message on a connection that was accepted [C82].
* Banning from the read handler waits for itself, or writes to a nil map [C44, C50].
* Connection slots leak, the connection counter loses updates, the table of connections can forget
  one, and Stop crashes or hangs [C47, C54, C68, C69, C75].
* A Ban during a redial leaves a connection that Stop never closes [C131]; a Ban of a listed address never
  returns as shipped [C132]; Stop cannot complete once a reader bans its own peer or a listed address never had a
  connection [C135], and panics when called twice [C137]. The version check of connectPeer is dead code [C134].
* A block whose parent has the hash zero can panic the node; the endings of a message are exactly listed [C136].
* An address that accepts the connection and stays silent stops all dialling, and Stop [C88].
* A peer that does not read is never given up, and goroutines that send to it pile up without limit [C126].
  Failed addresses are not retried while another one keeps connecting [C107]. Peers can hand out a failed
  address that is being banned [C117], and one with the capabilities of an earlier connection [C109].
* Blocks are relayed by goroutines that read the records later: a block can be sent back to its sender, to a
  peer that has it, or not to one that needs it [C120].
* A peer that was given in another notation than the usual one (a port with a leading zero) is never banned, and can be
  listed and dialled twice [C139].
* Addresses never leave the table of peers, which one peer can fill with made-up ones for good [C124].
* Writing a block, header or request that contains a hash of the wrong length ends the process [C108].
* Pings always claim difficulty 1 and height 1, and the node never requests a header or block
  [C83, C84].
* A shake of 24 bytes makes the reader ask for 2^48 bytes, a frame header of 11 bytes for 20,000,000 [C87].
* The connection counter and five fields of each record are accessed without synchronisation; the maps
  are not, and the mutexes alone cannot deadlock [C95-C97].
* Writers sort a shared block in place and can lose elements [C86]; built with Go before 1.19, also of valid blocks with
  more than 12 inputs, outputs or kernels [C119]. Outputs that differ in their range proof
  only are not put in order [C104].
* Verification compares x coordinates only, so (R, n-s) verifies whenever (R, s) does [C57]; the order
  n itself can be drawn as a random scalar [C60]; signatures are decoded without a check that R is on the
  curve [C101].
* On Testnet3 and Testnet4 the first block adds no work: a proof's difficulty is not scaled and is that of the parent [C125].

## 6. What is modelled

Functions of the repository and the files that model them (a dash: none, see below).

**chain/chain.go**: New (187-205) Chain; Chain.Genesis (208-210) Send; Chain.TotalDifficulty (213-215) Send; Chain.Height (218-220) Send; Chain.GetBlockHeaders (223-262) Chain; Chain.GetBlock (265-274) Chain; Chain.GetBlockID (277-279) Chain; Chain.ProcessHeaders (281-288) Chain; Chain.ProcessBlock (290-357) Chain; Chain.Head (360-362) Send; Chain.Validate (365-387) Chain.

**cmd/node/main.go**: init (11-18) —; main (20-26) Sync.

**consensus/block.go**: OutputFeatures.String (34-42) —; KernelFeatures.String (54-62) —; Block.Bytes (82-128) Consensus GoSort Relay; Block.Type (131-133) Consensus Messages; Block.Read (136-192) Alloc Consensus; Block.String (195-197) Consensus; Block.Hash (200-202) Consensus; Block.Validate (205-246) Consensus; Block.verifyCoinbase (248-270) Consensus; Block.verifyKernels (272-296) Consensus; Block.verifySorted (299-313) Consensus; Block.verifyRangeProofs (316-326) Consensus; CompactBlock.Bytes (346-391) Consensus; CompactBlock.Type (394-396) Consensus Messages; CompactBlock.Read (399-453) Alloc Consensus; CompactBlock.String (456-458) Consensus; CompactBlock.Hash (461-463) Consensus; Input.Bytes (472-484) Consensus; Input.Read (486-499) Consensus; Input.Hash (502-505) Consensus; InputList.Len (510-512) —; InputList.Less (515-517) Relay; InputList.Swap (519-521) Relay; Output.BytesWithoutProof (543-556) Consensus; Output.Bytes (559-577) Consensus; Output.Read (580-610) Consensus; Output.Validate (613-615) Consensus; Output.String (618-620) Consensus; Output.Hash (623-626) Consensus; OutputList.Len (631-633) —; OutputList.Less (636-638) Relay; OutputList.Swap (640-642) Relay; TxKernel.Hash (670-673) Consensus; TxKernel.Bytes (676-703) Consensus; TxKernel.Read (706-730) Consensus; TxKernel.Validate (735-751) Consensus; TxKernel.String (754-756) —; TxKernelList.Len (761-763) —; TxKernelList.Less (766-768) Relay; TxKernelList.Swap (770-772) Relay; BlockHeader.Hash (815-819) Consensus; BlockHeader.bytesWithoutPOW (822-901) Consensus; BlockHeader.bytesPOW (903-905) Consensus; BlockHeader.Bytes (908-914) Consensus; BlockHeader.Read (917-993) Consensus; BlockHeader.Validate (996-1030) Consensus; ValidateBlockVersion (1033-1043) Consensus; BlockHeader.String (1046-1048) —.

**consensus/difficulty.go**: Difficulty.FromNum (23-25) Send; Difficulty.FromHash (29-36) Consensus; Difficulty.IntoNum (38-40) Send; NextDifficulty (54-120) Consensus.

**consensus/id.go**: Hash.String (24-26) —; Hash.ShortID (29-40) Consensus; ShortID.String (45-47) —; ShortIDList.Len (52-54) —; ShortIDList.Less (56-58) Consensus; ShortIDList.Swap (60-62) —.

**consensus/locator.go**: Locator.Bytes (20-39) Consensus; Locator.Read (42-63) Alloc Consensus.

**consensus/proof.go**: Proof.Validate (32-41) Consensus; Proof.ToDifficulty (45-47) Consensus; Proof.Hash (50-53) Consensus; Proof.ProofBytes (56-85) PowCodec; Proof.Bytes (88-99) PowCodec; Proof.Read (102-139) PowCodec; NewProof (141-145) Send.

**consensus/transaction.go**: Transaction.Bytes (30-78) Consensus; Transaction.Type (81-83) Messages; Transaction.Read (86-153) Alloc Consensus; Transaction.String (156-158) —.

**cuckoo/cuckoo.go**: findCycleLength (24-67) Cuckoo; New (72-89) Cuckoo; Cuckoo.newNode (102-104) Cuckoo; Cuckoo.NewEdge (106-111) Cuckoo; Cuckoo.Verify (115-139) Cuckoo; NewCuckaroo (150-163) Cuckoo; NewFromKeys (166-170) —; Cuckaroo.Verify (174-198) Cuckoo; Cuckaroo.NewEdge (200-206) Cuckoo.

**cuckoo/siphash24.go**: NewSipHash24 (21-25) —; SipHash24.Sum64 (28-30) Siphash; SipHash24.Write64 (33-66) Siphash; siphash24 (69-73) Siphash; siphashBlock (76-98) Siphash.

**p2p/handshake.go**: hand.Bytes (42-78) Messages; hand.Type (80-82) Messages; hand.Read (84-141) Alloc Messages; shake.Bytes (162-184) Messages; shake.Type (186-188) Messages; shake.Read (190-228) Alloc Messages; shakeByHand (231-264) Handshake PropSilent; handByShake (267-293) Handshake.

**p2p/helpers.go**: serializeTCPAddr (16-54) Messages; deserializeTCPAddr (57-99) Messages.

**p2p/messages.go**: Header.Bytes (29-45) Send; Header.Write (48-57) Messages Send; Header.Read (60-75) Messages Serve; Header.validateMagic (78-80) —; Ping.Bytes (92-104) Messages; Ping.Type (107-109) Messages; Ping.Read (112-119) Messages; Ping.String (122-124) —; Pong.Type (132-134) Messages; GetPeerAddrs.Bytes (143-151) Messages; GetPeerAddrs.Type (154-156) Messages; GetPeerAddrs.Read (159-162) Messages; GetPeerAddrs.String (165-167) —; PeerError.Bytes (178-191) Messages; PeerError.Type (194-196) Messages; PeerError.Read (199-217) Alloc Messages; PeerError.String (220-222) —; PeerAddrs.Bytes (230-247) Messages; PeerAddrs.Type (250-252) Messages; PeerAddrs.Read (255-276) Alloc Messages; PeerAddrs.String (279-281) —; GetBlock.Bytes (289-295) Messages; GetBlock.Type (298-300) Messages; GetBlock.Read (303-310) Messages; GetBlock.String (313-315) —; BlockHeader.Bytes (327-335) Messages; BlockHeader.Type (338-340) Messages; BlockHeader.Read (343-345) —; BlockHeader.String (348-350) —; BlockHeaders.Bytes (358-377) Messages; BlockHeaders.Type (380-382) Messages; BlockHeaders.Read (385-404) Alloc Messages; BlockHeaders.String (407-409) —; GetBlockHeaders.Bytes (417-419) Messages; GetBlockHeaders.Type (422-424) Messages; GetBlockHeaders.Read (427-429) —; GetBlockHeaders.String (432-434) —.

**p2p/peer.go**: NewPeer (59-94) Handshake Serve Start; AcceptNewPeer (97-116) Handshake Serve; Peer.Start (119-123) Peer Serve Start; Peer.writeHandler (129-156) Peer Relay; Peer.WriteMessage (159-165) Peer Race; Peer.readHandler (171-341) Alloc Messages Peer Race Send Serve; Peer.Disconnect (344-354) Peer Race; Peer.Close (357-359) Peer; Peer.WaitForDisconnect (362-365) Peer; Peer.SendPing (368-376) Send; Peer.SendBlockRequest (379-386) Send; Peer.SendBlock (389-392) Send; Peer.SendPeerRequest (395-402) Send; Peer.SendHeaderRequest (405-417) Send; Peer.SendTransaction (420-423) Send.

**p2p/pool.go**: newPeersPool (25-36) Pool; peersPool.Ban (61-83) Peer Pool Race Sync; peersPool.IsBan (86-92) Pool Race; peersPool.Add (95-134) Pool Race; peersPool.Peers (137-168) Names Peer Pool Race; peersPool.PeerInfo (171-180) Pool Race; peersPool.PropagateBlock (183-197) Pool Race Relay; peersPool.connectPeer (200-279) Pool PropToldBy Race Send World; peersPool.Run (282-313) Pool PropShutAll Race Shutdown SpecDone SpecSelect SpecShutAll World; peersPool.Stop (316-318) Pool Race; peersPool.notConnected (321-340) Peer Pool Race.

**p2p/protocol.go**: WriteMessage (32-53) Messages PropStall; ReadMessage (56-75) Messages.

**p2p/server.go**: nonceList.Init (22-28) Handshake; nonceList.NextNonce (31-34) Handshake; nonceList.Consist (36-44) Handshake; init (48-54) —.

**p2p/sync.go**: NewSyncer (79-91) Race Sync; Syncer.Run (94-96) —; Syncer.Stop (99-101) —; Syncer.ProcessMessage (103-221) Names Pool Race Send Serve Shutdown Sync.

**secp256k1zkp/pedersen.go**: Commitment.Bytes (15-17) Send; Commitment.Read (20-24) Send; Commitment.String (27-29) —.

**secp256k1zkp/schnorr.go**: RandomBytes (23-31) Send; RandomInt (34-46) Schnorr; Signature.Bytes (56-63) Schnorr; SignMessage (75-94) Schnorr; VerifySignature (98-114) Schnorr; CommitValue (118-122) Schnorr; CompressPubkey (125-135) Schnorr; decompressPoint (138-151) Schnorr; DecodeSignature (154-165) Schnorr; ComputeHash (168-178) Hashes Schnorr; ComputeMessage (181-186) Schnorr.

**storage/mysql.go**: NewSqlStorage (17-21) —; SqlStorage.AddBlock (32-34) Chain; SqlStorage.DelBlock (37-39) Chain; SqlStorage.GetBlock (43-45) Chain; SqlStorage.From (48-50) Chain; SqlStorage.GetLastBlock (53-55) Chain.

### Not modelled

`String` methods, `Len`, logging, `init` of cmd/node/main.go (sets up logging), the seeding of the random
source in `init` of p2p/server.go, `NewSqlStorage` (keeps a database handle that nothing uses); `(Header).validateMagic`,
`(*BlockHeader).Read` and `(*GetBlockHeaders).Read` of p2p/messages.go, `NewSipHash24` and `NewFromKeys`
have no definition of their own (they are one-line wrappers that are inlined in their callers' models);
`Syncer.Run` and `Syncer.Stop` call the pool's, which are modelled. The tests. The Go memory model beyond the pool's fields (Race.v) and what section 2 says, the garbage collector and memory
exhaustion below the limit of `make`, scheduling fairness (only C140-C143 rest on it,
as explicit hypotheses), TCP, DNS, the MySQL driver, the mathematics of range proofs.

## 7. Trusted base

* The kernel of Coq 8.16.1 (and `vm_compute`, which is part of it); `coqchk` re-checks the compiled files.
* That the definitions cited in section 6 say what the Go code does, and that `GoRT.v`, `GoSort.v` (C119) and `Names.v`
  (C139) say what the Go runtime and standard library do. The test vectors of the repository run on the model
  (`Vectors.v`), which tests this and does not prove it.
* The laws of `Ext` that occur as hypotheses: of the external libraries they are assumed. For the
  instances `toy` and `real` they are proved. `real` is this development's own account of the
  library's curve, made from the constants in /repo and checked on the repository's test vectors.
* Axioms: none. `Print Assumptions` prints "Closed under the global context" for each of the theorems
  that the manifest names (listed in section 4, 455 of them), and the build prints it beneath each.
  `coqchk` also lists the axioms of `Coq.ssr.ssrunder`, a part of ssreflect that the standard library's `Lia` and `ZArith` load; no theorem depends on them.

## 8. Mutation testing

`seeded/LOG.jsonl` has one line per attempt: a definition of the model was changed in a scratch copy so
that the English claim of some property becomes false, and everything was rebuilt. A lemma whose
proof broke was replaced by an admitted one, so that all theorems depending on it are reported
as failed. A failed theorem is one whose proof no longer goes through; that it has become false
was not proved in each case.
