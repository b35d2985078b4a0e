{
 "claims": [
  {
   "property": "C01",
   "status": "proved",
   "theorems": [
    "C01_header_roundtrip"
   ],
   "note": "Every well-formed header (graph sizes 1..64) and trailing bytes."
  },
  {
   "property": "C02",
   "status": "proved",
   "theorems": [
    "C02_header_layout"
   ],
   "note": "Every typed header with 32-byte hashes and 42 nonces."
  },
  {
   "property": "C03",
   "status": "proved",
   "theorems": [
    "C03_packing_roundtrip",
    "C03_packing_layout"
   ],
   "note": ""
  },
  {
   "property": "C04",
   "status": "proved",
   "theorems": [
    "C04_hash_determines_pow",
    "C04_zero_edge_bits_refuted",
    "C04_new_proof_refuted"
   ],
   "note": "Collision made explicit; the graph-size-0 exception of the statement is C04_zero_edge_bits_refuted; NewProof makes such proofs."
  },
  {
   "property": "C05",
   "status": "partial",
   "theorems": [
    "C05_malleable_refuted",
    "C05_reencoding",
    "C05_not_malleable_partial"
   ],
   "note": "REFUTED as stated: every header with graph size above 32 or not a multiple of 4 has two encodings. Exact re-encoding behaviour proved for all accepted byte strings."
  },
  {
   "property": "C06",
   "status": "proved",
   "theorems": [
    "C06_block_roundtrip"
   ],
   "note": "For any sort and codecs meeting the laws in Ext.v."
  },
  {
   "property": "C07",
   "status": "partial",
   "theorems": [
    "C07_with_inputs_refuted",
    "C07_feature_byte_refuted",
    "C07_no_inputs_partial"
   ],
   "note": "REFUTED for every transaction with an input; proved without inputs."
  },
  {
   "property": "C08",
   "status": "proved",
   "theorems": [
    "C08_accepted_sorted_bounded",
    "C08_wire_iff_sorted"
   ],
   "note": ""
  },
  {
   "property": "C09",
   "status": "proved",
   "theorems": [
    "C09_compact_roundtrip",
    "C09_count_wraps_refuted"
   ],
   "note": "Fewer than 256 outputs and kernels; counts wrap from 256 on (second theorem)."
  },
  {
   "property": "C10",
   "status": "proved",
   "theorems": [
    "C10_locator_roundtrip",
    "C10_long_locator_refused",
    "C10_received_locator_bounded"
   ],
   "note": ""
  },
  {
   "property": "C100",
   "status": "proved",
   "theorems": [
    "C100_cuckaroo_contains_cycle",
    "C100_cuckoo_contains_cycle",
    "C100_cuckaroo_digest"
   ],
   "note": "No hypothesis on degrees; the case is a proof that is not itself a cycle (C22)."
  },
  {
   "property": "C101",
   "status": "partial",
   "theorems": [
    "C101_off_curve_refuted",
    "C101_exactly_partial",
    "C101_signed_partial"
   ],
   "note": "REFUTED: the coordinate is neither reduced nor checked to be on the curve. Proved: which bytes give a point, and that signatures made by SignMessage do. ModSqrtFast is not at hand; [real] takes the power (p+1)/4 of squares and non-squares alike."
  },
  {
   "property": "C102",
   "status": "proved",
   "theorems": [
    "C102_block",
    "C102_headers",
    "C102_same_limit",
    "C102_block_length",
    "C102_logged"
   ],
   "note": "The converse of C84: nobody sends these requests, but they work. That the stored items can be encoded is a hypothesis (C52)."
  },
  {
   "property": "C103",
   "status": "partial",
   "theorems": [
    "C103_shared_refuted",
    "C103_told_refuted",
    "C103_distinct_partial"
   ],
   "note": "REFUTED: Testnet1, Testnet2 and Mainnet have the hash of the empty string, and the shipped node, on Testnet1, announces Testnet4. Proved: Testnet3 and Testnet4 have hashes of their own, computed with BLAKE2b."
  },
  {
   "property": "C104",
   "status": "partial",
   "theorems": [
    "C104_order_refuted",
    "C104_block_partial",
    "C104_transaction_partial",
    "C104_compact_partial"
   ],
   "note": "REFUTED: outputs are sorted by a hash without the range proof, so two outputs that differ in the proof only stay in the order they are held in (witness on the real curve). Proved: there is no other exception but BLAKE2b collisions among the items at hand."
  },
  {
   "property": "C105",
   "status": "proved",
   "theorems": [
    "C105_control",
    "C105_addresses",
    "C105_address"
   ],
   "note": "Together with C05 (headers) this says which messages are malleable. Surplus bytes behind a message in a frame are ignored by the loop (C16)."
  },
  {
   "property": "C106",
   "status": "proved",
   "theorems": [
    "C106_frames",
    "C106_messages"
   ],
   "note": "Frames of at most 20000000 bytes, the limit of the reader."
  },
  {
   "property": "C107",
   "status": "partial",
   "theorems": [
    "C107_first_refuted",
    "C107_picked",
    "C107_undisturbed_partial",
    "C107_dials",
    "C107_starved"
   ],
   "note": "REFUTED for interleavings: notConnected reads the records one after the other without their locks. C107_picked is what holds of every execution, C107_undisturbed_partial is the claim when no status changes during the scan. The status may also change between the choice and the dial; C70 covers that."
  },
  {
   "property": "C108",
   "status": "proved",
   "theorems": [
    "C108_exactly",
    "C108_received"
   ],
   "note": "Exact, for all fourteen message types. The message is built in memory, so the length of a connection's buffer plays no role."
  },
  {
   "property": "C109",
   "status": "partial",
   "theorems": [
    "C109_connected",
    "C109_told",
    "C109_taken_on",
    "C109_recorded",
    "C109_between",
    "C109_stale_refuted",
    "C109_handed_out"
   ],
   "note": "REFUTED between the two steps that write a record: it has the capabilities of an earlier connection, and Peers hands them out. C109_recorded and C109_between say that there is no other exception. Height and total difficulty are overwritten by messages (C51, C53); the theorem follows version and capabilities."
  },
  {
   "property": "C11",
   "status": "proved",
   "theorems": [
    "C11_ping",
    "C11_get_peer_addrs",
    "C11_peer_error",
    "C11_headers",
    "C11_all_messages"
   ],
   "note": "Every sendable message of every type."
  },
  {
   "property": "C110",
   "status": "proved",
   "theorems": [
    "C110_dial",
    "C110_hand",
    "C110_listen",
    "C110_crash"
   ],
   "note": "Exact for all inputs. Input means everything the other side will ever send; a connection that stays open without sending is C88."
  },
  {
   "property": "C111",
   "status": "proved",
   "theorems": [
    "C111_always",
    "C111_understood",
    "C111_refused",
    "C111_reason",
    "C111_ends",
    "C111_crash"
   ],
   "note": "Strengthens C18 and C19 from single decoders to the whole stream. With which error a frame is refused is decode_frame; the stream is everything the other side will ever send."
  },
  {
   "property": "C112",
   "status": "proved",
   "theorems": [
    "C112_answers",
    "C112_wire",
    "C112_blocks"
   ],
   "note": "The genesis constants of Testnet1 enter here. Which of the answered messages can reach the handler is C79 and C111."
  },
  {
   "property": "C113",
   "status": "proved",
   "theorems": [
    "C113_layout",
    "C113_read"
   ],
   "note": "Fixes the format itself, which the round trips of C06-C13 leave open. Points and range proofs are written by the external library (codec_laws); the packed nonces are C02 and C03. IPv6 addresses: C12."
  },
  {
   "property": "C114",
   "status": "proved",
   "theorems": [
    "C114_cuckaroo_trail",
    "C114_cuckoo_trail",
    "C114_cuckaroo_lollipops",
    "C114_cuckoo_lollipops",
    "C114_not_cycles"
   ],
   "note": "Says from both sides what C22 leaves open. The converse is for lists without equal edges; between the two conditions lie trails that meet themselves elsewhere."
  },
  {
   "property": "C115",
   "status": "proved",
   "theorems": [
    "C115_header",
    "C115_block",
    "C115_child",
    "C115_one_answer",
    "C115_accepted",
    "C115_suffices"
   ],
   "note": "Refines C26, C29 and C35 from acceptance to the answer given, and states the header's proof of work without the verifier or the encoder. The gap between C115_accepted and C115_suffices is that of C114."
  },
  {
   "property": "C116",
   "status": "proved",
   "theorems": [
    "C116_not_connected",
    "C116_marks"
   ],
   "note": "Justifies that the two reads at pool.go:221 are one step of the model."
  },
  {
   "property": "C117",
   "status": "partial",
   "theorems": [
    "C117_filter_refuted",
    "C117_interleaved",
    "C117_undisturbed"
   ],
   "note": "REFUTED: a failed address that is being banned is returned. C117_interleaved is what holds of every execution; run alone, the function is that of C49."
  },
  {
   "property": "C118",
   "status": "proved",
   "theorems": [
    "C118_one_of_two",
    "C118_half",
    "C118_secp_refuted"
   ],
   "note": "Quantifies the loss that C56 characterises for one nonce."
  },
  {
   "property": "C119",
   "status": "partial",
   "theorems": [
    "C119_old_refuted",
    "C119_old_short",
    "C119_new",
    "C119_new_unsorted_refuted"
   ],
   "note": "REFUTED for Go before 1.19. The library is not in /repo: what it does on lists in order is transcribed in GoSort.v; what it does on others is universally quantified. /repo does not pin a toolchain; its dependencies are of December 2018."
  },
  {
   "property": "C12",
   "status": "partial",
   "theorems": [
    "C12_ipv4_partial",
    "C12_ipv6_exactly",
    "C12_ipv6_refuted",
    "C12_other_lengths_fatal"
   ],
   "note": "REFUTED for every IPv6 address except ::; proved for IPv4."
  },
  {
   "property": "C120",
   "status": "partial",
   "theorems": [
    "C120_echo_refuted",
    "C120_other_refuted",
    "C120_missed_refuted",
    "C120_alone",
    "C120_reads",
    "C120_sent"
   ],
   "note": "REFUTED in three ways; C120_reads and C120_sent are what holds of every execution, C120_alone reduces reads at once to C73."
  },
  {
   "property": "C121",
   "status": "partial",
   "theorems": [
    "C121_atomic_partial",
    "C121_contents",
    "C121_scan_refuted"
   ],
   "note": "REFUTED for the scans of the table; C121_atomic_partial covers the sections that only use the map of their mutex, C121_contents says what else happens in sections. Not covered: sections that start goroutines (PropagateBlock, Run after Stop), in each of which the map is read once. Justifies the single steps of Pool.v for Add, Ban, IsBan, lookups and ConnectedPeers."
  },
  {
   "property": "C122",
   "status": "partial",
   "theorems": [
    "C122_half",
    "C122_decay_refuted",
    "C122_fades_refuted",
    "C122_any_start",
    "C122_more_refuted"
   ],
   "note": "REFUTED; C122_half is the exact rule where nothing overflows."
  },
  {
   "property": "C123",
   "status": "proved",
   "theorems": [
    "C123_time",
    "C123_work",
    "C123_linked"
   ],
   "note": "About blocks that ProcessBlock accepts; the node does not make them its head, and accepts none as decoded from the wire (C36)."
  },
  {
   "property": "C124",
   "status": "partial",
   "theorems": [
    "C124_permanent",
    "C124_frozen_refuted",
    "C124_eclipsed_refuted",
    "C124_flood_refuted",
    "C124_closed"
   ],
   "note": "REFUTED. About BannedPeers as shipped, which is nil (C50): Ban ends the process before it deletes."
  },
  {
   "property": "C125",
   "status": "partial",
   "theorems": [
    "C125_first",
    "C125_real",
    "C125_adds_nothing",
    "C125_adds_work_refuted"
   ],
   "note": "REFUTED that a first block adds work; the conditions are exact, for each of the five networks, with BLAKE2b computed in the kernel. The witness uses the instance with a mined proof, whose hash is not BLAKE2b; C125_adds_nothing is about BLAKE2b."
  },
  {
   "property": "C126",
   "status": "partial",
   "theorems": [
    "C126_waits_refuted",
    "C126_frozen_refuted",
    "C126_pile_refuted",
    "C126_relays_refuted",
    "C126_free_refuted",
    "C126_drain_partial"
   ],
   "note": "REFUTED: writes have no deadline. C126_drain_partial: if writes return, all waiting sends can. The peer's machine and the node that relays are two models; C126_relays counts the goroutines that the second starts for a connection of the first. A fraction of the bytes of a write that does not return may be on the wire in fact; the model has none."
  },
  {
   "property": "C127",
   "status": "proved",
   "theorems": [
    "C127_accessed",
    "C127_left_out"
   ],
   "note": "Both machines are models of the same code, so this checks them against each other: a write, lock or goroutine that one has and the other lacks would show. That the accesses only read is not checked by it. C127_left_out says which steps of the pool's machine are not covered."
  },
  {
   "property": "C128",
   "status": "proved",
   "theorems": [
    "C128_bounded",
    "C128_one_more",
    "C128_ends",
    "C128_ends_well"
   ],
   "note": "No fairness is assumed: the bound is on every execution. Steps are those of the machine; a read or write of the connection returning is one of them (that it returns once the connection is closed is Go's net package). A message makes the handler start at most one send (C81)."
  },
  {
   "property": "C129",
   "status": "proved",
   "theorems": [
    "C129_as_if",
    "C129_before",
    "C129_unused",
    "C129_ends"
   ],
   "note": "Extends what is proved of started peers (C43, C45, C98) to all peers. Start is one step."
  },
  {
   "property": "C13",
   "status": "proved",
   "theorems": [
    "C13_hand",
    "C13_shake",
    "C13_other_versions_refused"
   ],
   "note": ""
  },
  {
   "property": "C130",
   "status": "proved",
   "theorems": [
    "C130_parts",
    "C130_exact",
    "C130_limit",
    "C130_cleaned"
   ],
   "note": "Ban's call of Close may return at any time, and the one after Stop once some Close of its peer has. A handler past its loop may still have to run Disconnect."
  },
  {
   "property": "C131",
   "status": "proved",
   "theorems": [
    "C131_told",
    "C131_over",
    "C131_made_map_refuted"
   ],
   "note": "For the code as shipped, whose map of banned addresses is never made. That Run and the closing goroutines end is not part of it (C54, C88)."
  },
  {
   "property": "C132",
   "status": "partial",
   "theorems": [
    "C132_recorded",
    "C132_stays",
    "C132_never_returns_refuted",
    "C132_alone"
   ],
   "note": "REFUTED as shipped: a call of Ban for a listed address never returns, under any schedule. With a made record of bans every call that returns has recorded the address (C132_recorded), and it stays recorded. C132_alone ties the sequential pool_ban of Sync.v to the steps of Pool.v."
  },
  {
   "property": "C133",
   "status": "proved",
   "theorems": [
    "C133_message",
    "C133_connection"
   ],
   "note": "Messages are handled while nobody else is in the middle of a call of Ban or holds ptmu or the lock of the record; interleavings inside one call are those of Pool.v (C117, C124, C132)."
  },
  {
   "property": "C134",
   "status": "proved",
   "theorems": [
    "C134_dead",
    "C134_recorded"
   ],
   "note": "pool.go:232-234 is dead code. C134_recorded follows Run alone; C109 says what happens in every interleaving."
  },
  {
   "property": "C135",
   "status": "proved",
   "theorems": [
    "C135_can_stop",
    "C135_exact",
    "C135_self_ban_refuted",
    "C135_no_peer_refuted"
   ],
   "note": "That everything can come to its end, not that the scheduler brings it there. C135_exact shows that the conditions are needed (but for the one on encoding, which rules out a crash of the write handler)."
  },
  {
   "property": "C136",
   "status": "proved",
   "theorems": [
    "C136_endings",
    "C136_unlisted",
    "C136_zero_refuted"
   ],
   "note": "Handled while nobody else changes the node (C133 says how that fits the interleavings). That no message takes the node down is false (C52, C80); this says exactly which do."
  },
  {
   "property": "C137",
   "status": "proved",
   "theorems": [
    "C137_given_up",
    "C137_gone_on",
    "C137_ban",
    "C137_stop"
   ],
   "note": "The version reason never occurs (C134)."
  },
  {
   "property": "C138",
   "status": "proved",
   "theorems": [
    "C138_writes",
    "C138_reads",
    "C138_unread",
    "C138_counter"
   ],
   "note": "The goroutines of Race.v, in which any branch may be taken; the reads of main leave out the capabilities, which only the model's merged scan reads."
  },
  {
   "property": "C139",
   "status": "partial",
   "theorems": [
    "C139_text",
    "C139_resolves",
    "C139_injective",
    "C139_names",
    "C139_remote",
    "C139_ban",
    "C139_refused",
    "C139_unbanned_refuted",
    "C139_twice_refuted",
    "C139_double_refuted",
    "C139_gossip"
   ],
   "note": "REFUTED for names in other notations than the usual one; proved for those. (*net.TCPAddr).String and net.ResolveTCPAddr are Go's library, which is not in /repo: Names.v transcribes them for IPv4 and leaves everything else arbitrary. C139_names discharges what C124 assumes of them."
  },
  {
   "property": "C14",
   "status": "partial",
   "theorems": [
    "C14_both_ends_refuted",
    "C14_dialler_fails_refuted",
    "C14_conforming_partial"
   ],
   "note": "REFUTED for every pair of nodes; a peer that sends its genesis hash is understood."
  },
  {
   "property": "C140",
   "status": "proved",
   "theorems": [
    "C140_ends",
    "C140_calls",
    "C140_possible",
    "C140_ban_refuted"
   ],
   "note": "Weak fairness, and only where Go gives it: nothing is asked of a goroutine that waits for a message, for an open connection, or for the handler of a message. A write or a read on a closed connection is taken to return (net.Conn). C140_possible shows that fairness asks for nothing that cannot be done, C140_ban_refuted that the exception is needed."
  },
  {
   "property": "C141",
   "status": "partial",
   "theorems": [
    "C141_stops",
    "C141_returns",
    "C141_select_refuted"
   ],
   "note": "REFUTED as stated; C141_stops is what holds, with the fairness of the scheduler and of the select as explicit hypotheses (C88_progress_partial shows that Run can always take a step where run_fair asks for one, C88_silent_refuted what happens if NewPeer does not return)."
  },
  {
   "property": "C142",
   "status": "proved",
   "theorems": [
    "C142_run",
    "C142_ends",
    "C142_cleaned",
    "C142_possible"
   ],
   "note": "The hypotheses are those of C140 for one peer, that nothing crashes, and for C142_cleaned that the goroutine that cleans up is not left waiting (cleaner_fair). As shipped they cannot hold once the read handler bans its own peer (C140_ban_refuted). C142_possible shows that they can hold together from any state that C135_can_stop covers."
  },
  {
   "property": "C143",
   "status": "proved",
   "theorems": [
    "C143_stop",
    "C143_each",
    "C143_connection",
    "C143_listed",
    "C143_possible",
    "C143_handled_refuted"
   ],
   "note": "The fairness is stated in SpecShutAll.v: that of C140 for every peer (peers_fair), that of C141 for Run, and for each closing goroutine that it calls Close when it gets there (closer_calls) and is otherwise not left waiting but for Close to return (closer_fair), which excludes a record lock that is never released. The deadlock of C75 is excluded by the condition that the handling of each message ends, which cannot be left out (C143_handled_refuted). A record that never had a connection makes the goroutine panic (C135), which the condition that nothing crashes excludes."
  },
  {
   "property": "C15",
   "status": "proved",
   "theorems": [
    "C15_roundtrip",
    "C15_bad_magic",
    "C15_other_type",
    "C15_too_long",
    "C15_incomplete_header"
   ],
   "note": ""
  },
  {
   "property": "C16",
   "status": "partial",
   "theorems": [
    "C16_loop",
    "C16_handshake_refuted"
   ],
   "note": "REFUTED for the handshake reader; proved for the connected peer's read loop, every stream and chunking."
  },
  {
   "property": "C17",
   "status": "proved",
   "theorems": [
    "C17_delivery"
   ],
   "note": "Every list of sendable messages and every chunking."
  },
  {
   "property": "C18",
   "status": "proved",
   "theorems": [
    "C18_consensus_decoders_safe",
    "C18_decoders_safe",
    "C18_loop"
   ],
   "note": "Every byte string and every chunking; external decoders (curve points, range proofs) are assumed not to crash (codec_safe)."
  },
  {
   "property": "C19",
   "status": "partial",
   "theorems": [
    "C19_compact_block_refuted",
    "C19_hand_refuted",
    "C19_shake_refuted",
    "C19_peer_error_refuted",
    "C19_loop_refuted"
   ],
   "note": "REFUTED: exactly the announced lengths above 2^48 panic (hand, shake, PeerError); a compact block frame crashes the read loop."
  },
  {
   "property": "C20",
   "status": "proved",
   "theorems": [
    "C20_cuckaroo_nonces_valid",
    "C20_cuckoo_nonces_valid"
   ],
   "note": "All keys, sizes and nonce lists, both variants."
  },
  {
   "property": "C21",
   "status": "proved",
   "theorems": [
    "C21_cuckaroo_cycles_accepted",
    "C21_cuckoo_cycles_accepted",
    "C21_cuckaroo_digest"
   ],
   "note": "All cycle lengths, labellings and edge orders, both variants."
  },
  {
   "property": "C22",
   "status": "partial",
   "theorems": [
    "C22_only_cycles_refuted",
    "C22_cuckoo_only_cycles_refuted",
    "C22_cuckaroo_sound_partial",
    "C22_cuckoo_sound_partial"
   ],
   "note": "REFUTED as stated: 42 nonces forming a 10-cycle with a 32-edge tail are accepted. Proved: an accepted proof is a cycle exactly if no vertex lies on more than two of its edges; C100 says what every accepted proof is."
  },
  {
   "property": "C23",
   "status": "proved",
   "theorems": [
    "C23_search_terminates"
   ],
   "note": "Every edge list."
  },
  {
   "property": "C24",
   "status": "proved",
   "theorems": [
    "C24_siphash",
    "C24_siphash_block"
   ],
   "note": "Every 64-bit key and nonce (block variant: nonces below 2^64-64; callers pass 32-bit nonces)."
  },
  {
   "property": "C25",
   "status": "proved",
   "theorems": [
    "C25_cuckaroo_edges_in_range",
    "C25_cuckoo_edges_in_range"
   ],
   "note": "Every key, size and 32-bit nonce."
  },
  {
   "property": "C26",
   "status": "proved",
   "theorems": [
    "C26_header_validate",
    "C26_accepted_nonces",
    "C26_cycle_accepted"
   ],
   "note": "Iff over every header that can come off the wire; the accepted example is a real 42-cycle in a 2^29-edge Cuckaroo graph."
  },
  {
   "property": "C27",
   "status": "proved",
   "theorems": [
    "C27_versions",
    "C27_unique",
    "C27_none_after"
   ],
   "note": ""
  },
  {
   "property": "C28",
   "status": "partial",
   "theorems": [
    "C28_far_future_partial",
    "C28_overflow_refuted",
    "C28_witness_refuted"
   ],
   "note": "REFUTED: wire times above 2^63-1-62135596800 wrap to the distant past and are accepted; proved for every smaller wire time."
  },
  {
   "property": "C29",
   "status": "proved",
   "theorems": [
    "C29_block_validate"
   ],
   "note": ""
  },
  {
   "property": "C30",
   "status": "partial",
   "theorems": [
    "C30_repeated_refuted",
    "C30_unsigned_kernel_refuted",
    "C30_no_coinbase_refuted",
    "C30_duplicates_refuted",
    "C30_weight_refuted",
    "C30_coinbase_signed_partial"
   ],
   "note": "REFUTED: what block validation does not check, with accepted blocks for each; coinbase kernels are signed."
  },
  {
   "property": "C31",
   "status": "partial",
   "theorems": [
    "C31_times_ignored_refuted",
    "C31_closed_form"
   ],
   "note": "REFUTED: the block times have no influence; closed form proved."
  },
  {
   "property": "C32",
   "status": "partial",
   "theorems": [
    "C32_difficulty",
    "C32_zero_refuted",
    "C32_panic_refuted",
    "C32_to_difficulty"
   ],
   "note": "REFUTED for zero hashes; formula proved otherwise."
  },
  {
   "property": "C33",
   "status": "proved",
   "theorems": [
    "C33_header_safe",
    "C33_block_safe"
   ],
   "note": ""
  },
  {
   "property": "C34",
   "status": "proved",
   "theorems": [
    "C34_unchanged"
   ],
   "note": ""
  },
  {
   "property": "C35",
   "status": "proved",
   "theorems": [
    "C35_known_parent",
    "C35_unknown_parent",
    "C35_zero_parent_panics"
   ],
   "note": "Also: unknown parent = block validation only; a parent proof hash with 64 leading zero bits panics."
  },
  {
   "property": "C36",
   "status": "partial",
   "theorems": [
    "C36_too_easy_refuted",
    "C36_witness_refuted"
   ],
   "note": "REFUTED for every wire block with a stored parent and non-empty window."
  },
  {
   "property": "C37",
   "status": "proved",
   "theorems": [
    "C37_responses",
    "C37_bound"
   ],
   "note": ""
  },
  {
   "property": "C38",
   "status": "partial",
   "theorems": [
    "C38_exactly",
    "C38_outcomes",
    "C38_invalid_parent_refuted",
    "C38_invalid_child_refuted",
    "C38_diverges_refuted",
    "C38_fresh_refuted",
    "C38_fresh_fatal_refuted"
   ],
   "note": "REFUTED both ways; it can diverge, and it fails on the chains that the program creates. The exact condition for nil, and the other outcomes, are proved for every chain."
  },
  {
   "property": "C39",
   "status": "proved",
   "theorems": [
    "C39_opened",
    "C39_restart"
   ],
   "note": ""
  },
  {
   "property": "C40",
   "status": "partial",
   "theorems": [
    "C40_total_partial",
    "C40_equal_refuted",
    "C40_wraps_refuted"
   ],
   "note": "REFUTED: zero proof difficulty and 64-bit wrap; proved: no decrease unless the sum wraps."
  },
  {
   "property": "C41",
   "status": "partial",
   "theorems": [
    "C41_stores_nothing_refuted"
   ],
   "note": "REFUTED: the only backend is a stub."
  },
  {
   "property": "C42",
   "status": "proved",
   "theorems": [
    "C42_cycle",
    "C42_any_schedule",
    "C42_alone",
    "C42_refused",
    "C42_self_dial"
   ],
   "note": "Any number of concurrent handshakes; racing reads of the index may return any value stored so far."
  },
  {
   "property": "C43",
   "status": "proved",
   "theorems": [
    "C43_once",
    "C43_waited",
    "C43_no_deadlock"
   ],
   "note": "Any number of goroutines and any schedule."
  },
  {
   "property": "C44",
   "status": "partial",
   "theorems": [
    "C44_waits_for_itself_refuted",
    "C44_nil_map_refuted",
    "C44_never_recorded_refuted",
    "C44_never_returns_refuted"
   ],
   "note": "REFUTED under every schedule."
  },
  {
   "property": "C45",
   "status": "proved",
   "theorems": [
    "C45_wire",
    "C45_send_returns"
   ],
   "note": "Any number of senders and any schedule; a failed write may leave part of one last frame."
  },
  {
   "property": "C46",
   "status": "proved",
   "theorems": [
    "C46_limit"
   ],
   "note": "Over every schedule of the model of Pool.v."
  },
  {
   "property": "C47",
   "status": "partial",
   "theorems": [
    "C47_slots_partial",
    "C47_never_back_refuted",
    "C47_idle_refuted",
    "C47_dead_refuted",
    "C47_one_peer_refuted"
   ],
   "note": "REFUTED: slots leak and never come back; the accounting of slots is proved."
  },
  {
   "property": "C48",
   "status": "proved",
   "theorems": [
    "C48_table",
    "C48_always",
    "C48_keeps",
    "C48_only",
    "C48_all",
    "C48_10000_refuted"
   ],
   "note": "The bound is 10001 and is reached."
  },
  {
   "property": "C49",
   "status": "proved",
   "theorems": [
    "C49_peers",
    "C49_added",
    "C49_unheard"
   ],
   "note": ""
  },
  {
   "property": "C50",
   "status": "partial",
   "theorems": [
    "C50_never_recorded_refuted",
    "C50_crash_refuted",
    "C50_dialled_again_refuted",
    "C50_ignored_refuted"
   ],
   "note": "REFUTED: bans are never recorded (nil map) and would not be consulted."
  },
  {
   "property": "C51",
   "status": "proved",
   "theorems": [
    "C51_ping",
    "C51_pong",
    "C51_get_headers",
    "C51_get_block",
    "C51_get_peers",
    "C51_peers",
    "C51_silent",
    "C51_chain"
   ],
   "note": "The handler runs alone: interleavings are in Peer.v and Pool.v."
  },
  {
   "property": "C52",
   "status": "partial",
   "theorems": [
    "C52_tx_refuted",
    "C52_refused_refuted",
    "C52_own_refuted",
    "C52_otherwise_partial",
    "C52_answers_partial",
    "C52_genesis_refuted"
   ],
   "note": "REFUTED: transactions, refused headers and blocks, genesis block requests; proved for everything else."
  },
  {
   "property": "C53",
   "status": "partial",
   "theorems": [
    "C53_record_partial",
    "C53_lowered_refuted"
   ],
   "note": "REFUTED; the exact update is proved."
  },
  {
   "property": "C54",
   "status": "partial",
   "theorems": [
    "C54_never_closed_refuted",
    "C54_crash_refuted",
    "C54_clean_partial"
   ],
   "note": "REFUTED for any entry that never had a connection; possible for tables where each had one."
  },
  {
   "property": "C55",
   "status": "proved",
   "theorems": [
    "C55_signatures_verify",
    "C55_signature_equation",
    "C55_verify_exactly"
   ],
   "note": "In any group meeting the curve laws of SpecSchnorr.v."
  },
  {
   "property": "C56",
   "status": "partial",
   "theorems": [
    "C56_serialised_exactly",
    "C56_serialised_refuted",
    "C56_decoder"
   ],
   "note": "REFUTED as stated; exact characterisation proved for all keys, messages and nonces not divisible by the order."
  },
  {
   "property": "C57",
   "status": "partial",
   "theorems": [
    "C57_malleable_refuted",
    "C57_scalars_exactly",
    "C57_kernel_refuted"
   ],
   "note": "REFUTED for every accepted signature; the accepted scalars are characterised exactly."
  },
  {
   "property": "C58",
   "status": "proved",
   "theorems": [
    "C58_homomorphic",
    "C58_modulo_order",
    "C58_commit_zero",
    "C58_negation"
   ],
   "note": ""
  },
  {
   "property": "C59",
   "status": "proved",
   "theorems": [
    "C59_message_layout",
    "C59_message_injective",
    "C59_key_layout",
    "C59_key_encoding"
   ],
   "note": ""
  },
  {
   "property": "C60",
   "status": "partial",
   "theorems": [
    "C60_order_returned_refuted",
    "C60_first_draw_partial",
    "C60_returns"
   ],
   "note": "REFUTED: n itself is returned."
  },
  {
   "property": "C61",
   "status": "proved",
   "theorems": [
    "C61_short_id",
    "C61_short_hash_panics"
   ],
   "note": ""
  },
  {
   "property": "C62",
   "status": "partial",
   "theorems": [
    "C62_accepted_valid_partial",
    "C62_same_hash_refuted",
    "C62_node_refuted",
    "C62_node_wire_partial"
   ],
   "note": "REFUTED: blocks with the hash of the head are not validated; proved otherwise, and, up to collisions, for blocks the shipped node gets from peers."
  },
  {
   "property": "C63",
   "status": "partial",
   "theorems": [
    "C63_only_proof_refuted",
    "C63_own_parent_refuted"
   ],
   "note": "REFUTED: only the proof is hashed."
  },
  {
   "property": "C64",
   "status": "proved",
   "theorems": [
    "C64_batch",
    "C64_first_error",
    "C64_unlinked_refuted"
   ],
   "note": ""
  },
  {
   "property": "C65",
   "status": "partial",
   "theorems": [
    "C65_listener_refuted",
    "C65_dialler_refuted"
   ],
   "note": "REFUTED for every genesis hash."
  },
  {
   "property": "C66",
   "status": "partial",
   "theorems": [
    "C66_never_closed_refuted",
    "C66_every_dial_refuted"
   ],
   "note": "REFUTED."
  },
  {
   "property": "C67",
   "status": "partial",
   "theorems": [
    "C67_close_early_refuted",
    "C67_winner_partial",
    "C67_unstarted_refuted"
   ],
   "note": "REFUTED for a caller that loses the compare-and-swap, and for one that calls before Start; proved for the winner otherwise."
  },
  {
   "property": "C68",
   "status": "partial",
   "theorems": [
    "C68_drift_refuted",
    "C68_sinks_refuted",
    "C68_bound_partial",
    "C68_range_partial"
   ],
   "note": "REFUTED: lost updates in both directions; at most 16 (reached), and at least minus the number of connections made."
  },
  {
   "property": "C69",
   "status": "partial",
   "theorems": [
    "C69_forgotten_refuted",
    "C69_up_partial"
   ],
   "note": "REFUTED: a reconnect can be forgotten; one inclusion proved."
  },
  {
   "property": "C70",
   "status": "proved",
   "theorems": [
    "C70_once"
   ],
   "note": ""
  },
  {
   "property": "C71",
   "status": "partial",
   "theorems": [
    "C71_accepted_partial",
    "C71_refused_refuted",
    "C71_invalid_refuted"
   ],
   "note": "REFUTED; proved when the reported address is in the table."
  },
  {
   "property": "C72",
   "status": "partial",
   "theorems": [
    "C72_height_refuted",
    "C72_shipped_refuted"
   ],
   "note": "REFUTED for every history."
  },
  {
   "property": "C73",
   "status": "proved",
   "theorems": [
    "C73_relay"
   ],
   "note": "The claim is about records read at once, which C120_alone makes precise; what happens when the goroutines read them later is C120."
  },
  {
   "property": "C74",
   "status": "proved",
   "theorems": [
    "C74_listed"
   ],
   "note": "With the nil ban map of the code."
  },
  {
   "property": "C75",
   "status": "partial",
   "theorems": [
    "C75_stuck_refuted",
    "C75_happens_refuted",
    "C75_otherwise_partial"
   ],
   "note": "REFUTED when the closing goroutine takes the lock while the read handler waits for it; otherwise the connection can always be closed and the lock comes back."
  },
  {
   "property": "C76",
   "status": "partial",
   "theorems": [
    "C76_parts_refuted",
    "C76_chain_refuted"
   ],
   "note": "REFUTED for all valid blocks."
  },
  {
   "property": "C77",
   "status": "partial",
   "theorems": [
    "C77_balance_refuted"
   ],
   "note": "REFUTED from every valid block."
  },
  {
   "property": "C78",
   "status": "partial",
   "theorems": [
    "C78_overdeclared_refuted",
    "C78_below_target_refuted",
    "C78_declared_partial"
   ],
   "note": "REFUTED; the declared difficulty is at least the target."
  },
  {
   "property": "C79",
   "status": "proved",
   "theorems": [
    "C79_served",
    "C79_chain",
    "C79_complete"
   ],
   "note": "Assumes the peer is not disconnected meanwhile and the write handler takes the answers; those are in C43-C45."
  },
  {
   "property": "C80",
   "status": "partial",
   "theorems": [
    "C80_dial_refuted",
    "C80_otherwise_partial"
   ],
   "note": "REFUTED by a complete attack; what breaks the node otherwise is characterised."
  },
  {
   "property": "C81",
   "status": "proved",
   "theorems": [
    "C81_bounded"
   ],
   "note": "For the storage of the repository."
  },
  {
   "property": "C82",
   "status": "partial",
   "theorems": [
    "C82_accepted_refuted"
   ],
   "note": "REFUTED."
  },
  {
   "property": "C83",
   "status": "partial",
   "theorems": [
    "C83_ping_refuted",
    "C83_pong_partial"
   ],
   "note": "REFUTED for the greeting; the pong is proved to carry the state."
  },
  {
   "property": "C84",
   "status": "partial",
   "theorems": [
    "C84_never_asks_refuted"
   ],
   "note": "REFUTED. Relayed blocks, the only other messages queued, are not requests."
  },
  {
   "property": "C85",
   "status": "proved",
   "theorems": [
    "C85_gossip"
   ],
   "note": "For addresses that resolve to IPv4; IPv6 addresses do not survive the wire format (C12)."
  },
  {
   "property": "C86",
   "status": "partial",
   "theorems": [
    "C86_race_refuted",
    "C86_sorted_refuted",
    "C86_valid_partial",
    "C86_calm_partial",
    "C86_single_partial"
   ],
   "note": "REFUTED. The library's sort is modelled as a tree of Less and Swap calls; only its insertion sort, used for short lists, is modelled in full; C119 says what its sorts do on longer lists in order. Accesses to one element are single steps."
  },
  {
   "property": "C87",
   "status": "partial",
   "theorems": [
    "C87_same",
    "C87_frame",
    "C87_messages_partial",
    "C87_loop_partial",
    "C87_frame_refuted",
    "C87_block_refuted",
    "C87_hand_refuted",
    "C87_shake_refuted",
    "C87_error_refuted",
    "C87_compact_refuted"
   ],
   "note": "REFUTED for hands, shakes, errors and compact blocks, whose announced lengths are not limited, and for the buffer of the read loop, made before the body is there. Proved: all other messages, and the read loop without compact blocks, are bounded by the bytes received plus a constant. Makes of a fixed size and those inside the external decoders are not counted; [codec_shrinks] (external decoders return no more bytes than they got) is a hypothesis, met by the real and the toy codecs."
  },
  {
   "property": "C88",
   "status": "partial",
   "theorems": [
    "C88_silent_refuted",
    "C88_alone_refuted",
    "C88_unread_refuted",
    "C88_progress_partial",
    "C88_stop_partial"
   ],
   "note": "REFUTED: no deadline is set, and Run itself waits for the shake, and for the first ping to be written. Proved: Run gets stuck nowhere else, and after Stop it can always end if NewPeer and that write return."
  },
  {
   "property": "C89",
   "status": "proved",
   "theorems": [
    "C89_primes",
    "C89_group",
    "C89_cyclic",
    "C89_codec",
    "C89_signatures",
    "C89_verify_exactly",
    "C89_homomorphic",
    "C89_block_roundtrip"
   ],
   "note": "No law and no number of points is assumed: primality by certificates, the group by the formulas, cyclicity by counting cosets. The arithmetic of the library is not at hand; [real] computes the curve from the constants."
  },
  {
   "property": "C90",
   "status": "proved",
   "theorems": [
    "C90_hiding"
   ],
   "note": "Stated as a bijection between blinding factors; no probability is modelled."
  },
  {
   "property": "C91",
   "status": "partial",
   "theorems": [
    "C91_binding_refuted",
    "C91_reduction_partial"
   ],
   "note": "REFUTED as it stands, as for any hiding commitment; reduced to the discrete logarithm of H. That nobody can compute it is not proved."
  },
  {
   "property": "C92",
   "status": "proved",
   "theorems": [
    "C92_nonce_reuse",
    "C92_extraction"
   ],
   "note": ""
  },
  {
   "property": "C93",
   "status": "proved",
   "theorems": [
    "C93_stops"
   ],
   "note": ""
  },
  {
   "property": "C94",
   "status": "proved",
   "theorems": [
    "C94_decoded",
    "C94_delivered"
   ],
   "note": "The ids of a compact block, the agent string of a handshake and the text of an error are limited only by the frame."
  },
  {
   "property": "C95",
   "status": "proved",
   "theorems": [
    "C95_race_free"
   ],
   "note": "Race.v leaves data out: every branch and every record may be taken, so its executions include those of the code. Channels are not counted as ordering anything."
  },
  {
   "property": "C96",
   "status": "partial",
   "theorems": [
    "C96_races_refuted",
    "C96_races_partial"
   ],
   "note": "REFUTED: an execution of two peers, one of which reconnects while the other sends a block and asks for addresses, has all six races; it follows a path of the code. Proved: no others."
  },
  {
   "property": "C97",
   "status": "proved",
   "theorems": [
    "C97_no_mutex_deadlock",
    "C97_waits_end"
   ],
   "note": "Channels, WaitGroups and the network are taken to return; the deadlocks through those are C44, C50, C54 and C88."
  },
  {
   "property": "C98",
   "status": "proved",
   "theorems": [
    "C98_can_end",
    "C98_ended"
   ],
   "note": "Possibility, over every reachable state: that a network read or write returns is a step that may be taken. The ban is C44."
  },
  {
   "property": "C99",
   "status": "proved",
   "theorems": [
    "C99_end_to_end",
    "C99_any_messages"
   ],
   "note": "Composes the write handler (C45) with the read loop (C17). TCP is taken to deliver a prefix of what was written."
  }
 ]
}