{"id": "C01", "title": "Block header wire round-trip", "statement": "Serialising a block header and reading it back yields a header equal in every transmitted field (version, height, timestamp in seconds, previous, previous root, UTXO/range-proof/kernel roots, total kernel offset, MMR sizes, total difficulty, scaling difficulty, nonce, proof of work), consumes exactly the serialised bytes and leaves whatever follows them untouched. Difficulty and TotalKernelSum are not transmitted and come back empty.", "quantifier": "every header whose fields have their Go types, 32-byte hashes and a canonical 42-nonce proof of any graph size 1..64; every trailing byte string", "why_tests_cant": "tests decode one recorded block; the claim ranges over every field value, every graph size and every suffix", "anchors": ["consensus/block.go:BlockHeader.Bytes", "consensus/block.go:BlockHeader.Read", "consensus/block.go:bytesWithoutPOW", "consensus/proof.go:Proof"]}
{"id": "C02", "title": "Block header wire layout", "statement": "The serialised header has every field, big-endian, at the byte offset of the Grin protocol (version 0, height 2, timestamp 10, previous 18, previous root 50, UTXO root 82, range-proof root 114, kernel root 146, kernel offset 178, output MMR size 210, kernel MMR size 218, total difficulty 226, scaling 234, nonce 238, graph size 246, packed nonces 247..) and is exactly 247 + ceil(42*edgeBits/8) bytes long.", "quantifier": "every well-typed header with 32-byte hashes and 42 nonces", "why_tests_cant": "a round-trip test passes when writer and reader swap two fields together; only a statement about every offset and value fixes the format", "anchors": ["consensus/block.go:bytesWithoutPOW", "consensus/proof.go:Proof.Bytes"]}
{"id": "C03", "title": "Proof-of-work nonce packing round-trip", "statement": "Packing 42 nonces at edgeBits bits each and unpacking them returns the same graph size and nonces; bit b of nonce i sits at bit position i*edgeBits+b (little-endian within bytes).", "quantifier": "every edgeBits in 1..64, every 42 nonces that fit in min(edgeBits,32) bits, every trailing byte string", "why_tests_cant": "2^1344 possible proofs per graph size; bit boundaries differ for each of the 64 sizes", "anchors": ["consensus/proof.go:Proof.Bytes", "consensus/proof.go:Proof.Read", "consensus/proof.go:ProofBytes"]}
{"id": "C04", "title": "Block hash determines the proof of work", "statement": "Two canonical proofs of work (any graph sizes >= 1) with equal block-hash preimages are the same proof, so block hashes collide only through a hash-function collision. (False for edgeBits 0: every such proof has the empty preimage, so the Testnet1, Testnet2 and Mainnet genesis blocks all have the same hash.)", "quantifier": "all pairs of canonical proofs; all hash functions", "why_tests_cant": "injectivity is a statement about all pairs of inputs", "anchors": ["consensus/block.go:BlockHeader.Hash", "consensus/proof.go:ProofBytes", "chain/chain.go:Testnet1", "chain/chain.go:Testnet2", "chain/chain.go:Mainnet"]}
{"id": "C05", "title": "Wire headers are not malleable", "statement": "If a byte string is accepted as a block header then re-serialising the decoded header gives back the same bytes. (Refuted: padding bits after the packed nonces, and bits above 32 of each nonce when edgeBits > 32, are ignored on reading. Holds whenever edgeBits is a multiple of 4 and at most 32; every other byte of the header is preserved in all cases.)", "quantifier": "every byte string accepted by BlockHeader.Read", "why_tests_cant": "the counterexamples are byte strings no encoder produces", "anchors": ["consensus/proof.go:Proof.Read", "consensus/block.go:BlockHeader.Read"]}
{"id": "C06", "title": "Block wire round-trip", "statement": "Serialising a block and reading it back gives the same header and the same inputs, outputs and kernels, each list in ascending order of item hash, and consumes exactly the bytes written.", "quantifier": "every block with a round-trippable header and at most 1,000,000 inputs, outputs and kernels, in any initial order; any correct sorting algorithm; every trailing byte string", "why_tests_cant": "the number and order of items are unbounded and depend on hash values", "anchors": ["consensus/block.go:Block.Bytes", "consensus/block.go:Block.Read", "consensus/block.go:Input", "consensus/block.go:Output", "consensus/block.go:TxKernel"]}
{"id": "C07", "title": "Transaction wire round-trip", "statement": "Serialising a transaction and reading it back yields the same transaction with sorted lists. (Refuted for every transaction that spends at least one input: the writer omits the input feature byte that the reader expects. Proved for transactions without inputs.)", "quantifier": "every transaction with at most 1,000,000 items per list", "why_tests_cant": "the only test decodes one recorded transaction and never re-encodes it", "anchors": ["consensus/transaction.go:Transaction.Bytes", "consensus/transaction.go:Transaction.Read"]}
{"id": "C08", "title": "Transactions accepted from the wire are sorted and bounded", "statement": "If a byte string is accepted as a transaction then its inputs, outputs and kernels are each in non-decreasing order of item hash and number at most 1,000,000; a transaction whose lists are out of order is refused.", "quantifier": "every byte string, every hash function", "why_tests_cant": "acceptance must imply order for all inputs, not for sampled ones", "anchors": ["consensus/transaction.go:Transaction.Read"]}
{"id": "C09", "title": "Compact block wire round-trip", "statement": "Serialising a compact block and reading it back gives the same header, outputs, kernels and 6-byte short ids, each list sorted. (Needs fewer than 256 outputs and kernels: with 256 or more the count byte wraps and the block that is read back differs.)", "quantifier": "every compact block with fewer than 256 outputs/kernels and any number of short ids that can be allocated", "why_tests_cant": "counts wrap silently only at sizes tests never build", "anchors": ["consensus/block.go:CompactBlock.Bytes", "consensus/block.go:CompactBlock.Read"]}
{"id": "C10", "title": "Locator and header-request round-trip and bound", "statement": "A header request with at most 14 hashes of 32 bytes round-trips exactly; a received request announcing more than 14 hashes is refused.", "quantifier": "every locator, every byte string", "why_tests_cant": "all counts and all hash values", "anchors": ["consensus/locator.go:Locator.Bytes", "consensus/locator.go:Locator.Read", "p2p/messages.go:GetBlockHeaders"]}
{"id": "C11", "title": "Control message round-trips", "statement": "Ping, Pong, GetPeerAddrs, PeerError, GetBlock, BlockHeader and BlockHeaders (at most 512 headers) each decode to the message that was encoded, consuming exactly its bytes.", "quantifier": "every field value, every message text, every list of at most 512 round-trippable headers, every trailing byte string", "why_tests_cant": "the value space is unbounded", "anchors": ["p2p/messages.go:Ping", "p2p/messages.go:Pong", "p2p/messages.go:GetPeerAddrs", "p2p/messages.go:PeerError", "p2p/messages.go:GetBlock", "p2p/messages.go:BlockHeaders"]}
{"id": "C12", "title": "Peer address round-trip", "statement": "A list of at most 256 peer addresses sent to a peer is received unchanged. (Proved for IPv4 addresses. Refuted for IPv6: no IPv6 address other than :: is ever received as sent, whichever way the Go runtime treats the non-pointer binary.Read argument.)", "quantifier": "every list of at most 256 addresses, every port", "why_tests_cant": "tests never exchange addresses; the IPv6 claim is a universal negative", "anchors": ["p2p/helpers.go:serializeTCPAddr", "p2p/helpers.go:deserializeTCPAddr", "p2p/messages.go:PeerAddrs"]}
{"id": "C13", "title": "Handshake message round-trip and version check", "statement": "A hand or shake message of protocol version 1 with a 32-byte genesis hash decodes to what was encoded (IPv4 addresses); a message with any other version is refused whatever follows.", "quantifier": "every field value, user agent and byte string", "why_tests_cant": "tests decode one recorded shake", "anchors": ["p2p/handshake.go:hand", "p2p/handshake.go:shake"]}
{"id": "C14", "title": "Two gringo nodes can shake hands", "statement": "When one node dials another running the same code with a different nonce list, the dialling node receives the shake that the listener sent. (Refuted: the listener never fills in the genesis hash, so the dialler always fails with an end-of-file error.)", "quantifier": "every nonce, address and listener state", "why_tests_cant": "needs both ends of the protocol at once; the test reads a foreign node's recorded shake", "anchors": ["p2p/handshake.go:shakeByHand", "p2p/handshake.go:handByShake"]}
{"id": "C15", "title": "Message framing round-trip", "statement": "Writing any message of at most 20,000,000 body bytes and reading it with a receiver for the same type yields the message and reports 11 + body length bytes on both sides; a frame with a wrong magic, another type, or a longer announced length is refused without touching the body.", "quantifier": "every message type and body, every trailing byte string, every header byte string", "why_tests_cant": "all lengths and header values", "anchors": ["p2p/protocol.go:WriteMessage", "p2p/protocol.go:ReadMessage", "p2p/messages.go:Header"]}
{"id": "C16", "title": "A frame is consumed whole", "statement": "After a message has been read from a stream the stream is positioned at the next frame. (Proved for the connected-peer read loop, for every stream and body. Refuted for the handshake reader: body bytes beyond what the message decoder consumes stay in the stream and are taken for the next header.)", "quantifier": "every stream and announced length", "why_tests_cant": "needs adversarial bodies longer than the decoder reads", "anchors": ["p2p/protocol.go:ReadMessage", "p2p/peer.go:readHandler"]}
{"id": "C17", "title": "The read loop delivers exactly the frames sent, in order", "statement": "If the remote side sends the frames of messages m1..mn, the read loop dispatches exactly m1..mn in that order and counts the sum of their frame sizes, however the network splits the byte stream into chunks.", "quantifier": "every list of messages and every chunking of the stream", "why_tests_cant": "the number of messages and chunkings is unbounded", "anchors": ["p2p/peer.go:readHandler", "p2p/messages.go:Header.Read"]}
{"id": "C18", "title": "Decoders of the listed messages never crash on hostile bytes", "statement": "Reading Ping, Pong, GetPeerAddrs, PeerAddrs, GetBlockHeaders, BlockHeader, BlockHeaders, GetBlock, Block and Transaction from any byte string returns a value or an error: it never panics and never terminates the process.", "quantifier": "every byte string", "why_tests_cant": "fuzzing samples; the claim is about all strings", "anchors": ["consensus/block.go:Block.Read", "consensus/transaction.go:Transaction.Read", "consensus/proof.go:Proof.Read", "p2p/messages.go"]}
{"id": "C19", "title": "No message from a peer crashes its decoder", "statement": "As C18 for hand, shake, PeerError and compact blocks. (Refuted: a 64-bit length field is passed to make() unchecked, so a short message makes each of them panic.)", "quantifier": "every byte string", "why_tests_cant": "the crash needs a specific length field; the refutation is a witness for each decoder", "anchors": ["p2p/handshake.go:hand.Read", "p2p/handshake.go:shake.Read", "p2p/messages.go:PeerError.Read", "consensus/block.go:CompactBlock.Read"]}
{"id": "C20", "title": "Accepted proofs of work use valid nonces", "statement": "If proof-of-work verification accepts, the nonce list is non-empty, strictly increasing, and every nonce is below 2^edgeBits (for the older variant: below easiness).", "quantifier": "every key, graph size and nonce list", "why_tests_cant": "acceptance must imply the rule for all inputs", "anchors": ["cuckoo/cuckoo.go:Cuckaroo.Verify", "cuckoo/cuckoo.go:Cuckoo.Verify"]}
{"id": "C21", "title": "Every genuine cycle is accepted", "statement": "If the nonces are valid and the edges they generate form one simple cycle through all of them (in any order of the edges), verification accepts.", "quantifier": "every cycle length, every vertex labelling, every order of the edges", "why_tests_cant": "tests try one 42-cycle and one 6-cycle", "anchors": ["cuckoo/cuckoo.go:findCycleLength", "cuckoo/cuckoo.go:Cuckaroo.Verify"]}
{"id": "C22", "title": "Only genuine cycles are accepted", "statement": "If verification accepts, the edges generated by the nonces form one simple cycle through all of them. (Refuted: a short cycle through the first edge with a path hanging off it is accepted. Proved: an accepted proof is such a cycle exactly if no vertex has more than two of its edges.)", "quantifier": "every key, graph size and nonce list", "why_tests_cant": "the counterexamples are graphs no miner of genuine cycles produces; soundness ranges over all graphs", "anchors": ["cuckoo/cuckoo.go:findCycleLength"]}
{"id": "C23", "title": "Cycle search terminates within the proof size", "statement": "The cycle search stops after at most as many steps as there are edges, for every edge list, and never reports more than the number of edges.", "quantifier": "every edge list", "why_tests_cant": "termination of an unbounded loop over all graphs", "anchors": ["cuckoo/cuckoo.go:findCycleLength"]}
{"id": "C24", "title": "SipHash matches its specification", "statement": "The keyed hash used for edges is SipHash-2-4 compression (two rounds, then finalisation with 0xff and four rounds) with the published ARX round; results are 64-bit; the blocked variant hashes the 64-aligned block of the nonce in sequence and XORs the nonce's digest with the block's last one (just the last one for the last nonce).", "quantifier": "every key and nonce", "why_tests_cant": "four test vectors cannot fix a function on 2^320 inputs", "anchors": ["cuckoo/siphash24.go:Write64", "cuckoo/siphash24.go:siphash24", "cuckoo/siphash24.go:siphashBlock"]}
{"id": "C25", "title": "Edge endpoints are in range", "statement": "Every generated edge has endpoints inside the graph: Cuckaroo endpoints are at most 2^edgeBits-1; Cuckoo endpoints are below the vertex count with U even and V odd.", "quantifier": "every key, graph size (1..63) and nonce", "why_tests_cant": "ranges over all hash outputs", "anchors": ["cuckoo/cuckoo.go:NewEdge", "cuckoo/cuckoo.go:newNode", "cuckoo/cuckoo.go:New"]}
{"id": "C26", "title": "Header validation accepts exactly the header rules", "statement": "BlockHeader.Validate returns nil exactly when the version matches the hard-fork schedule for the height, the timestamp is at most 720 seconds ahead of the clock, edgeBits is 29 or at least 30, the scaling factor is 1 unless edgeBits is 29, and the proof of work verifies for the header's own pre-proof bytes.", "quantifier": "every wire-representable header, every clock value", "why_tests_cant": "an equivalence over all headers and clocks", "anchors": ["consensus/block.go:BlockHeader.Validate", "consensus/block.go:ValidateBlockVersion", "consensus/proof.go:Proof.Validate"]}
{"id": "C27", "title": "Block version schedule", "statement": "Block version 1 is valid exactly below height 95,000, version 2 exactly from 95,000 up to 249,999, version 3 exactly from 250,000 up to 499,999, and no version is valid from 500,000 on; at each height at most one version is valid.", "quantifier": "every 64-bit height and 16-bit version", "why_tests_cant": "2^80 pairs", "anchors": ["consensus/block.go:ValidateBlockVersion", "consensus/consensus.go"]}
{"id": "C28", "title": "Far-future blocks are refused", "statement": "A header whose wire timestamp is more than 720 s ahead of the clock is never accepted. (Refuted for timestamps above 2^63-1-62135596800: the conversion overflows into the distant past. Proved for all other timestamps.)", "quantifier": "every 64-bit wire timestamp and every clock value", "why_tests_cant": "the failing range is beyond any realistic test value", "anchors": ["consensus/block.go:BlockHeader.Validate", "consensus/block.go:BlockHeader.Read"]}
{"id": "C29", "title": "A valid block obeys the block rules that are implemented", "statement": "If Block.Validate returns nil then the header is valid, there is at least one output and one kernel, all three lists are in non-decreasing hash order, at most one output and at most one kernel carry the coinbase flag, every output's range proof verifies and every coinbase kernel's signature verifies; conversely a block with these properties is accepted.", "quantifier": "every block, every outcome of the cryptographic checks", "why_tests_cant": "an equivalence over unbounded lists", "anchors": ["consensus/block.go:Block.Validate", "consensus/block.go:verifyCoinbase", "consensus/block.go:verifyKernels", "consensus/block.go:verifySorted", "consensus/block.go:verifyRangeProofs"]}
{"id": "C30", "title": "A valid block obeys the full consensus rules", "statement": "Every kernel of a valid block has a valid signature, a valid block has a coinbase output and kernel, contains no duplicate items and weighs at most 80,000. (Each refuted: only coinbase kernels are checked, no coinbase is required, duplicates pass the sort check and weight is never computed.)", "quantifier": "every block", "why_tests_cant": "needs blocks that honest miners never build", "anchors": ["consensus/block.go:verifyKernels", "consensus/block.go:Validate", "consensus/consensus.go:MaxBlockWeight"]}
{"id": "C31", "title": "Difficulty adjustment responds to block times", "statement": "The next difficulty depends on the time the window took. (Refuted: it is the same for any timestamps, because the lower and upper time bounds coincide; proved closed form: 0 for no blocks, 1 unless exactly 71 blocks are given, and otherwise max(1, ((sum of the first 60 difficulties / 60) * 3600 mod 2^64) / 7200).)", "quantifier": "every list of past blocks, every timestamp assignment", "why_tests_cant": "independence from an argument is a claim about all its values", "anchors": ["consensus/difficulty.go:NextDifficulty", "consensus/consensus.go:LowerTimeBound"]}
{"id": "C32", "title": "Proof difficulty is at least the minimum", "statement": "The difficulty computed from a proof is at least 1. (Refuted: it is 0 for every hash above the target and the computation panics when the first 8 hash bytes are zero; proved: otherwise it is floor(0x0fffffffffffffff / leading 64 bits).)", "quantifier": "every 32-byte hash", "why_tests_cant": "the panicking hash occurs once in 2^64", "anchors": ["consensus/difficulty.go:FromHash", "consensus/proof.go:ToDifficulty"]}
{"id": "C33", "title": "Headers from the wire never terminate the process", "statement": "A header, or block, decoded from any byte string can be hashed, re-serialised and validated without the process being terminated or panicking.", "quantifier": "every byte string accepted by a decoder, every clock value", "why_tests_cant": "fatal length checks must be unreachable for all inputs", "anchors": ["consensus/block.go:bytesWithoutPOW", "consensus/block.go:Validate", "consensus/proof.go:ProofBytes"]}
{"id": "C34", "title": "Chain state changes only through accepted blocks", "statement": "No sequence of ProcessBlock, ProcessHeaders, GetBlock, GetBlockHeaders and Validate calls changes the head, height, total difficulty or genesis that the chain reports (blocks are never applied), and nothing is written to storage.", "quantifier": "every call sequence, every storage", "why_tests_cant": "all histories", "anchors": ["chain/chain.go:ProcessBlock", "chain/chain.go:Height", "chain/chain.go:TotalDifficulty", "chain/chain.go:Head"]}
{"id": "C35", "title": "Block acceptance against the parent", "statement": "For a block different from the head whose parent is known, ProcessBlock returns nil exactly when the block is valid, its time is strictly after its parent's, its total difficulty equals the parent's plus the parent's proof difficulty (mod 2^64) and its declared difficulty is at least the adjusted difficulty of the preceding window.", "quantifier": "every block, chain and storage", "why_tests_cant": "an equivalence over all blocks and chains", "anchors": ["chain/chain.go:ProcessBlock"]}
{"id": "C36", "title": "Blocks received from peers can extend the chain", "statement": "A valid block received from a peer whose parent is stored is accepted. (Refuted: Difficulty is not transmitted, so every such block is refused as too easy whenever storage returns any block for the window; the same holds for every block, valid or not.)", "quantifier": "every byte string that decodes to a block, every storage with a non-empty window", "why_tests_cant": "needs codec, difficulty and chain rules together for all blocks", "anchors": ["chain/chain.go:ProcessBlock", "consensus/block.go:BlockHeader.Read", "consensus/difficulty.go:NextDifficulty"]}
{"id": "C37", "title": "Header responses", "statement": "GetBlockHeaders uses at most the first 14 locator hashes, returns nothing if the first known hash is the head, otherwise the headers following the first hash known to storage in storage order, and never more than 512 if storage honours its limit.", "quantifier": "every locator, chain and storage", "why_tests_cant": "all locators and chain lengths", "anchors": ["chain/chain.go:GetBlockHeaders"]}
{"id": "C38", "title": "Chain validation accepts only chains of valid blocks", "statement": "Chain.Validate returns nil only if every block from the head back to genesis is valid. (Refuted both ways: the error test is inverted, so it stops successfully at the first valid block and walks past invalid ones; proved: it returns nil exactly when the walk back reaches a valid block or a child of genesis. A chain that has only one of the five genesis blocks is reported broken, and that of Testnet4 ends the process.)", "quantifier": "every storage content and chain length", "why_tests_cant": "all chain lengths, including corrupt ancestors behind a valid head", "anchors": ["chain/chain.go:Validate"]}
{"id": "C39", "title": "Restart restores the stored tip", "statement": "A chain opened on storage reports the last stored block's header as head with its height and total difficulty, or the genesis block's if storage is empty.", "quantifier": "every genesis and storage", "why_tests_cant": "all stored tips", "anchors": ["chain/chain.go:New"]}
{"id": "C40", "title": "Total difficulty grows along accepted blocks", "statement": "A block accepted on top of a known parent has a strictly larger total difficulty than its parent. (Refuted: proof difficulty may be 0 and the sum wraps modulo 2^64; proved: it never decreases unless the 64-bit sum wraps.)", "quantifier": "every accepted block", "why_tests_cant": "15 of 16 hashes give difficulty 0, but through a hash no test controls; wrap-around needs huge totals", "anchors": ["chain/chain.go:ProcessBlock", "consensus/difficulty.go:FromHash"]}
{"id": "C41", "title": "Storage returns what was added", "statement": "After AddBlock a block can be read back by hash. (Refuted for the only storage backend: it stores nothing.)", "quantifier": "every sequence of storage calls", "why_tests_cant": "all histories", "anchors": ["storage/mysql.go:SqlStorage", "chain/storage.go:Storage"]}
{"id": "C42", "title": "Connections to ourselves are detected", "statement": "Every nonce the node ever puts into a hand message is recognised by its own listener, after any number of handshakes and for any initial random list, so a connection to itself is refused.", "quantifier": "every nonce list, every number of handshakes and every interleaving of concurrent handshakes", "why_tests_cant": "all histories of the cyclic index", "anchors": ["p2p/server.go:nonceList", "p2p/handshake.go:handByShake"]}
{"id": "C43", "title": "Disconnect happens once and waits for both handlers", "statement": "Under every interleaving of any number of Disconnect/Close calls with the read and write handlers, the quit channel is closed at most once (no double-close panic), the wait group never goes negative, and WaitForDisconnect returns only after quit is closed and both handlers have left their loops; the only state in which existing goroutines cannot move although some have not ended is a read handler waiting for itself inside Ban.", "quantifier": "every schedule, any number of concurrent callers", "why_tests_cant": "schedules are unbounded and not controllable from a unit test", "anchors": ["p2p/peer.go:Disconnect", "p2p/peer.go:WaitForDisconnect", "p2p/peer.go:readHandler", "p2p/peer.go:writeHandler"]}
{"id": "C44", "title": "Banning a misbehaving peer completes", "statement": "When a handler bans its own peer, the connection is closed, the address is remembered as banned and removed from the table. (Refuted under every schedule: the read handler waits for its own termination; if another goroutine disconnected first, the write to the never-initialised ban map panics. A completed ban never happens.)", "quantifier": "every schedule and pool state", "why_tests_cant": "a universal claim about schedules", "anchors": ["p2p/pool.go:Ban", "p2p/peer.go:Disconnect", "p2p/sync.go:ProcessMessage", "p2p/pool.go:newPeersPool"]}
{"id": "C45", "title": "Messages are written whole and in order", "statement": "The bytes put on the wire for a peer are the concatenation of complete frames of the messages handed to its send queue, in hand-over order, under every schedule and any number of concurrent senders; the sent-bytes counter equals their total length; a send on a closed peer returns instead of blocking.", "quantifier": "every schedule, any number of senders and messages", "why_tests_cant": "interleavings of concurrent senders", "anchors": ["p2p/peer.go:writeHandler", "p2p/peer.go:WriteMessage", "p2p/protocol.go:WriteMessage"]}
{"id": "C46", "title": "Connection limit", "statement": "The number of simultaneously live outbound connections never exceeds 15, under every schedule of connection attempts, failures and disconnects.", "quantifier": "every schedule, every peers table and dial outcome", "why_tests_cant": "all schedules", "anchors": ["p2p/pool.go:Run", "p2p/pool.go:connectPeer"]}
{"id": "C47", "title": "Connection slots are not leaked", "statement": "Whenever fewer than 15 connections are live the pool can start another connection attempt. (Refuted: each loop iteration that finds nobody to connect to keeps its slot for good, so that after 15 of them, possible from the start with an empty table, the pool never connects again, and with one connection it never gets a second one; proved: between iterations the occupied slots are exactly those of unfinished connections and the leaked ones.)", "quantifier": "every schedule", "why_tests_cant": "the leak builds up over histories", "anchors": ["p2p/pool.go:Run", "p2p/pool.go:connectPeer", "p2p/pool.go:notConnected"]}
{"id": "C48", "title": "Peers table is bounded and has unique addresses", "statement": "Under any sequence of Add calls the table holds at most 10,001 entries (not 10,000: the size test is off by one), never two for one address, and adding never alters an existing entry; unresolvable, multicast or port-0 addresses are never added.", "quantifier": "every sequence of addresses, any resolver", "why_tests_cant": "all histories", "anchors": ["p2p/pool.go:Add"]}
{"id": "C49", "title": "Peer lists handed out respect filter and size", "statement": "Every address returned for a capability request is in the table, is neither banned nor failed, has all requested capabilities, and at most 256 are returned, whatever the map iteration order; if fewer than 256 are returned all eligible resolvable ones are. Of addresses that were only added, all are eligible for a request without capabilities and none for any other.", "quantifier": "every table, request and iteration order", "why_tests_cant": "map iteration order is random; tables are unbounded", "anchors": ["p2p/pool.go:Peers", "p2p/messages.go:PeerAddrs.Bytes"]}
{"id": "C50", "title": "Banned addresses are not used again", "statement": "An address recorded as banned is never added to the peers table or dialled again. (Refuted: the ban map is nil, so a ban is never recorded and recording one takes the process down; and with a made map neither Add nor connectPeer would consult it.)", "quantifier": "every history", "why_tests_cant": "all histories", "anchors": ["p2p/pool.go:Add", "p2p/pool.go:IsBan", "p2p/pool.go:Ban"]}
{"id": "C51", "title": "Message handling answers and records correctly", "statement": "A ping is answered with one pong carrying the chain's total difficulty and height and the sender's announced values are recorded; a pong only records; a header request is answered with GetBlockHeaders' result; a block request is answered with the block exactly when it is known; peer addresses are added; no other message produces an answer.", "quantifier": "every node state and message", "why_tests_cant": "all states and messages", "anchors": ["p2p/sync.go:ProcessMessage"]}
{"id": "C52", "title": "No message terminates the node", "statement": "No message from a connected peer makes the handler panic or exit. (Refuted for the shipped node: its mempool is nil, so any well-formed transaction panics, and any header list or block failing validation hangs the handler; proved for every other message.)", "quantifier": "every message and node state", "why_tests_cant": "all messages", "anchors": ["p2p/sync.go:ProcessMessage", "cmd/node/main.go"]}
{"id": "C53", "title": "Recorded peer height is monotone under block messages", "statement": "Receiving a block never lowers the recorded height or total difficulty of its sender. (Refuted: the update is taken when either value is larger and overwrites both.)", "quantifier": "every peer record and block", "why_tests_cant": "needs the two values to disagree", "anchors": ["p2p/sync.go:ProcessMessage"]}
{"id": "C54", "title": "Stopping the pool closes connections cleanly", "statement": "Stopping closes every connection. (Refuted: an address that was never connected has no peer object, and closing it panics.)", "quantifier": "every peers table", "why_tests_cant": "all tables", "anchors": ["p2p/pool.go:Run", "p2p/pool.go:Stop"]}
{"id": "C55", "title": "Schnorr signatures verify", "statement": "A signature made with private key x for public key xG verifies for the same message.", "quantifier": "every key, message and random nonce, in any commutative group with the scalar laws", "why_tests_cant": "all keys and nonces", "anchors": ["secp256k1zkp/schnorr.go:SignMessage", "secp256k1zkp/schnorr.go:VerifySignature"]}
{"id": "C56", "title": "Serialised signatures verify", "statement": "A signature still verifies after being serialised to 64 bytes and decoded. (Refuted: the y coordinate of R is not transmitted and the decoder picks a fixed root; it verifies exactly when R has that root, up to the coincidence that s*G = +-(e*P - R).)", "quantifier": "every key, message and nonce", "why_tests_cant": "fails for half of all random nonces; the test never serialises", "anchors": ["secp256k1zkp/schnorr.go:Signature.Bytes", "secp256k1zkp/schnorr.go:DecodeSignature"]}
{"id": "C57", "title": "Signatures are not malleable", "statement": "For a given key, message and R only one scalar verifies. (Refuted: verification compares x coordinates only, so whenever (R,s) verifies so does (R,n-s), and kernels can be altered without their owner.)", "quantifier": "every accepted signature", "why_tests_cant": "a universal statement about accepted signatures", "anchors": ["secp256k1zkp/schnorr.go:VerifySignature", "consensus/block.go:TxKernel.Validate"]}
{"id": "C58", "title": "Pedersen commitments are homomorphic", "statement": "The sum of the commitments to (r1,v1) and (r2,v2) is the commitment to (r1+r2,v1+v2), and the commitment to zero with blinding r is r*G.", "quantifier": "all blinding factors and values", "why_tests_cant": "all values", "anchors": ["secp256k1zkp/schnorr.go:CommitValue"]}
{"id": "C59", "title": "Kernel message and key encodings are injective", "statement": "Different (fee, lock height) pairs give different signed messages; the 33-byte public key encoding determines x and the parity of y; the signed message is 32 bytes with fee at 16 and lock height at 24, big-endian.", "quantifier": "all pairs of inputs", "why_tests_cant": "injectivity ranges over all pairs", "anchors": ["secp256k1zkp/schnorr.go:ComputeMessage", "secp256k1zkp/schnorr.go:CompressPubkey"]}
{"id": "C60", "title": "Random scalars are valid", "statement": "RandomInt returns a scalar in [0,n). (Refuted: n itself passes the range test; proved: the result is in [0,n] and is the first 32-byte draw not above n.)", "quantifier": "every random stream", "why_tests_cant": "the failing draw occurs once in 2^256", "anchors": ["secp256k1zkp/schnorr.go:RandomInt"]}
{"id": "C61", "title": "Short identifiers", "statement": "ShortID returns exactly the 6 low bytes, little-endian, of the SipHash of the item hash keyed by the first 16 bytes of the block hash, for every block hash of at least 16 bytes; shorter block hashes panic.", "quantifier": "every item hash and block hash", "why_tests_cant": "all inputs", "anchors": ["consensus/id.go:ShortID"]}
{"id": "C62", "title": "Accepted blocks are valid", "statement": "Every block for which ProcessBlock returns nil passes block validation. (Refuted: a block with the head's hash is accepted unvalidated, and ProcessBlock of the shipped node so accepts every block whose proof claims EdgeBits 0; proved: this is the only exception, and no block from the wire claims EdgeBits 0.)", "quantifier": "every block, chain and storage", "why_tests_cant": "needs a block outside the valid ones that hits the shortcut", "anchors": ["chain/chain.go:ProcessBlock", "cmd/node/main.go:main"]}
{"id": "C63", "title": "Block hashes commit to the block", "statement": "Blocks with equal hashes have equal headers. (Refuted: the hash covers the proof's graph size and nonces only, so Previous, times, roots and body are not committed to, and a block can be its own parent.)", "quantifier": "every pair of blocks", "why_tests_cant": "about all pairs of blocks", "anchors": ["consensus/block.go:BlockHeader.Hash", "consensus/block.go:Proof.Bytes"]}
{"id": "C64", "title": "Header batches", "statement": "ProcessHeaders returns nil exactly when every header of the batch validates, and otherwise the error of the first that does not. (Headers are not checked against each other or the chain: any valid header repeated any number of times is accepted.)", "quantifier": "every batch, chain and storage", "why_tests_cant": "all batch lengths", "anchors": ["chain/chain.go:ProcessHeaders"]}
{"id": "C65", "title": "Nodes of other chains are refused", "statement": "A handshake with a peer that announces a different genesis hash fails on both sides, as the comments on hand and shake say. (Refuted: neither side looks at the genesis hash; every well-formed hand and shake is accepted.)", "quantifier": "every hand, shake and genesis hash", "why_tests_cant": "all genesis hashes", "anchors": ["p2p/handshake.go:handByShake", "p2p/handshake.go:shakeByHand", "p2p/peer.go:NewPeer", "p2p/peer.go:AcceptNewPeer"]}
{"id": "C66", "title": "Failed handshakes release the connection", "statement": "When NewPeer returns an error after dialling, the connection has been closed. (Refuted: it never is, and every dial to a node running this code fails that way.)", "quantifier": "every input and write outcome", "why_tests_cant": "leaks are not observable from the returned values", "anchors": ["p2p/peer.go:NewPeer"]}
{"id": "C67", "title": "Close returns only after the connection is closed", "statement": "When Disconnect or Close returns, the connection is closed and both handlers have left their loops. (Refuted: a caller that finds the flag set returns at once, with nothing closed yet; and one that closes the peer before it is started returns while the handlers are still to come, with the connection closed; proved for the caller that wins the compare-and-swap on a started peer.)", "quantifier": "every schedule and number of callers", "why_tests_cant": "needs two callers to race", "anchors": ["p2p/peer.go:Disconnect", "p2p/peer.go:Close"]}
{"id": "C68", "title": "Connection counter is exact", "statement": "Whenever no connection is being made or cleaned up, the counter pp.connected equals the number of live connections. (Refuted: the count up in Run and the count down in the waiting goroutine are unsynchronised, and lost updates can bring it to 16 with one live connection, after which connectPeer refuses while that connection lives; they can also bring it below zero, by one for every connection made, after which its check in connectPeer never refuses (the slots still bound the connections); proved: it never exceeds 16, is never below minus the number of connections made, and so stays within int32 while there were at most 2^31 of them.)", "quantifier": "every schedule, disconnect and dial outcome", "why_tests_cant": "needs many lost updates", "anchors": ["p2p/pool.go:connectPeer"]}
{"id": "C69", "title": "ConnectedPeers holds the live connections", "statement": "Whenever no connection is being made or cleaned up, ConnectedPeers holds exactly the addresses of live connections, so that new blocks are sent to each. (Refuted: the goroutine of an old connection removes the entry of the new connection to the same address, and blocks are then sent to nobody; proved: every entry belongs to a connection not yet cleaned up.)", "quantifier": "every schedule", "why_tests_cant": "needs a reconnect to overtake a clean-up", "anchors": ["p2p/pool.go:connectPeer", "p2p/pool.go:PropagateBlock"]}
{"id": "C70", "title": "At most one connection per table entry", "statement": "Run never dials an entry of the peers table while a connection made for that entry is live.", "quantifier": "every schedule, with bans and stops at any time", "why_tests_cant": "all interleavings", "anchors": ["p2p/pool.go:Run", "p2p/pool.go:connectPeer", "p2p/pool.go:Ban"]}
{"id": "C71", "title": "Only accepted blocks are relayed", "statement": "A block received from a peer is relayed only if ProcessBlock accepted it, and then it is valid. (Refuted twice: when the address reported by the connection is not a key of the peers table, Ban does nothing and a refused block is relayed; and a block that copies the head's proof is accepted unvalidated and relayed. Proved: with the address in the table only accepted blocks are relayed.)", "quantifier": "every node state, peer and block", "why_tests_cant": "needs address strings to differ, and a block outside the valid ones", "anchors": ["p2p/sync.go:ProcessMessage", "p2p/pool.go:Ban", "p2p/pool.go:PropagateBlock"]}
{"id": "C72", "title": "New blocks on top of the chain are relayed", "statement": "An accepted block that extends the chain is relayed, as the comments in ProcessMessage say. (Refuted: the chain never advances, so after any history only blocks at the height it had at the start are relayed; for the shipped node, height 0.)", "quantifier": "every history of messages and pool changes", "why_tests_cant": "all histories", "anchors": ["p2p/sync.go:ProcessMessage", "chain/chain.go:ProcessBlock"]}
{"id": "C73", "title": "Blocks are relayed to those that are behind, not to the sender", "statement": "An accepted block at the chain's height is sent to exactly the connections in ConnectedPeers whose recorded height or total difficulty is lower than the block's, except the one it came from, if the goroutines that send it read the records before these change; otherwise see 'A relayed block goes to peers that are behind, whatever happens meanwhile'.", "quantifier": "every node state, peer and block", "why_tests_cant": "all tables and records", "anchors": ["p2p/sync.go:ProcessMessage", "p2p/pool.go:PropagateBlock"]}
{"id": "C74", "title": "The peer of a handler is in the table", "statement": "While a connection's handlers run, its address is in the peers table, with the record of that connection; so the Fatal 'unexpected error' is not reached.", "quantifier": "every schedule, with bans and stops at any time", "why_tests_cant": "all interleavings", "anchors": ["p2p/sync.go:ProcessMessage", "p2p/pool.go:connectPeer", "p2p/pool.go:Ban"]}
{"id": "C75", "title": "Stopping does not deadlock with a message being handled", "statement": "When the pool stops, the goroutine closing a connection returns even if a message from that connection is being handled. (Refuted: it holds the lock of the peer's record while it waits for the read handler, which needs that lock for a ping, pong or block; both then wait for ever.)", "quantifier": "every schedule", "why_tests_cant": "needs the stop to fall between the receipt of a message and its handling", "anchors": ["p2p/pool.go:Run", "p2p/sync.go:ProcessMessage", "p2p/peer.go:Disconnect"]}
{"id": "C76", "title": "A header belongs to one block", "statement": "Of all blocks with a given header at most one is valid: the header commits to inputs, outputs and kernels. (Refuted: header, inputs, outputs and kernels taken from any four valid blocks form a valid block, and the chain treats a block whose contents were exchanged like the original.)", "quantifier": "all blocks, clocks and chain states", "why_tests_cant": "needs blocks with valid parts from different origins; holds for every combination", "anchors": ["consensus/block.go:Validate", "chain/chain.go:ProcessBlock"]}
{"id": "C77", "title": "Valid blocks create no money", "statement": "The outputs of a valid block balance its inputs, kernel excesses and the reward. (Refuted: from every valid block two valid ones that spend different commitments are obtained, and for no reward and offset do both balance.)", "quantifier": "all valid blocks, all rewards and offsets, all curves satisfying the group laws", "why_tests_cant": "needs commitments that do not balance; holds for every valid block", "anchors": ["consensus/block.go:Validate"]}
{"id": "C78", "title": "Blocks carry the work they declare", "statement": "The difficulty declared by an accepted block is at most that of its proof. (Refuted: every accepted block is also accepted when it declares more than its proof is worth; a block whose proof is worth less than the target is accepted. Proved: the declared difficulty is at least the target.)", "quantifier": "all blocks and chain states", "why_tests_cant": "needs a block with less work than it declares", "anchors": ["consensus/block.go:Validate", "chain/chain.go:ProcessBlock", "consensus/proof.go:ToDifficulty"]}
{"id": "C79", "title": "A connection is served frame by frame", "statement": "However the bytes of a connection are split on arrival, they are a sequence of whole frames and a rest; the node, the answers and the byte count are those of handling the messages in the frames one after the other, up to the first whose handling does not return. The chain never changes.", "quantifier": "all byte streams, all splittings, all surrounding activity, all node states", "why_tests_cant": "composition of framing, decoding and handling for every stream", "anchors": ["p2p/peer.go:readHandler", "p2p/sync.go:ProcessMessage"]}
{"id": "C80", "title": "No connection takes the node down", "statement": "Whatever a dialled peer sends, the node keeps running. (Refuted with a complete attack: an address that answers the node's hand with a shake and an empty transaction, 134 bytes, makes it panic. Proved: a node without a mempool only breaks at a compact block whose decoding panics, a transaction, or refused headers or blocks while the reported address is in the table.)", "quantifier": "all byte streams, splittings and surroundings", "why_tests_cant": "needs a complete connection; the positive part covers all streams", "anchors": ["p2p/peer.go:NewPeer", "p2p/peer.go:readHandler", "p2p/sync.go:ProcessMessage"]}
{"id": "C81", "title": "Answers are bounded by what was received", "statement": "With the repository's storage the node sends at most one message per frame received, every one can be encoded, and their total size is at most 189 times the bytes received.", "quantifier": "all byte streams, node states and address tables", "why_tests_cant": "a bound over all streams; the worst case needs a full table of IPv6 addresses", "anchors": ["p2p/sync.go:ProcessMessage", "p2p/pool.go:Peers", "p2p/helpers.go:serializeTCPAddr"]}
{"id": "C82", "title": "Connections that were accepted are served", "statement": "Messages of a peer made by AcceptNewPeer are handled. (Refuted: the peer has no syncer, so the first message that would be handled makes the process panic; nothing is answered before.)", "quantifier": "all handshakes, streams and node states", "why_tests_cant": "AcceptNewPeer is not called by the shipped node or the tests", "anchors": ["p2p/peer.go:AcceptNewPeer", "p2p/peer.go:readHandler"]}
{"id": "C83", "title": "Greeting a peer tells it the sender's state", "statement": "When a node has greeted a peer, the peer's record of the node holds the node's total difficulty and height. (Refuted: whatever the sender's chain, the receiver records total difficulty 1 and height 1. Proved: the answer, a pong, in any chunks makes its receiver record the answering node's total difficulty and height.)", "quantifier": "all chains of the sender, states of the receiver and splittings", "why_tests_cant": "needs two nodes connected and a look into the receiver's table", "anchors": ["p2p/peer.go:SendPing", "p2p/pool.go:connectPeer", "p2p/sync.go:ProcessMessage"]}
{"id": "C84", "title": "A node that lags behind asks for what it lacks", "statement": "A node told by a peer of a higher total difficulty requests headers or blocks from it. (Refuted: whatever the node, its chain and what the peer sends, nothing it queues for a peer after the handshake requests headers or a block.)", "quantifier": "all node states and byte streams", "why_tests_cant": "absence over all executions", "anchors": ["p2p/sync.go:ProcessMessage", "p2p/pool.go:connectPeer", "p2p/peer.go:SendHeaderRequest", "p2p/peer.go:SendBlockRequest"]}
{"id": "C85", "title": "Addresses spread", "statement": "The answer to a request for addresses can be sent; in whatever chunks it arrives, the requesting node keeps the addresses it had, adds only endpoints of eligible entries of the answering node's table and, when the answer is not full and there is room, all of those that are usable (IPv4).", "quantifier": "all address tables, resolutions and splittings", "why_tests_cant": "composition of the table of one node, the wire format and the table of another", "anchors": ["p2p/pool.go:Peers", "p2p/pool.go:Add", "p2p/messages.go:PeerAddrs.Read", "p2p/sync.go:ProcessMessage"]}
{"id": "C86", "title": "A block relayed to several peers reaches each of them intact", "statement": "Every peer that a block is relayed to is sent the lists of the block, sorted. (Refuted: the peers' writers share the block and sort it in place; two of them can lose an element of a list that is out of order, and with a sort that moves elements on the way also of one that is in order. Proved: with insertion sort, or any sort that exchanges nothing in a sorted list, the lists of a valid block reach every peer in every interleaving; a single writer always sends the sorted list.)", "quantifier": "all lists, numbers of peers and interleavings", "why_tests_cant": "a race between writers; tests send to one peer at a time", "anchors": ["p2p/pool.go:PropagateBlock", "p2p/peer.go:writeHandler", "consensus/block.go:Bytes", "consensus/block.go:Swap"]}
{"id": "C87", "title": "Decoding asks for memory in proportion to what was received", "statement": "While decoding, the number of slice elements asked for never exceeds the number of bytes received by more than a constant. (Refuted: a hand, a shake, an error or a compact block of a few bytes asks for any number up to the address space; eleven bytes make the read loop ask for 20,000,000 bytes. Proved: every other message asks for at most one element per byte and a million more, and in the read loop buffers are limited to 20,000,000 bytes and a frame that is not a compact block to its length and a million more, on every stream and splitting.)", "quantifier": "all byte strings, streams and splittings", "why_tests_cant": "tests decode well-formed messages; the bound is over all inputs including those that fail midway", "anchors": ["p2p/peer.go:readHandler", "consensus/block.go:Read", "consensus/transaction.go:Read", "p2p/handshake.go:Read", "p2p/messages.go:PeerError.Read"]}
{"id": "C88", "title": "A silent address does not stop the pool", "statement": "While one address neither answers nor closes, the pool goes on connecting to others, and Stop closes the existing connections. (Refuted: NewPeer waits for the shake without a deadline, inside Run and holding the record's lock, and so does the second message to a new peer, for the first to be written; until they return, whatever the others do, connections only go and a call of Stop closes nothing. Proved: Run is stuck nowhere else, and can end from every state after Stop if they return.)", "quantifier": "all executions of the pool, of any length", "why_tests_cant": "needs a peer that stays silent for ever, and all interleavings with it", "anchors": ["p2p/pool.go:connectPeer", "p2p/pool.go:Run", "p2p/pool.go:Stop", "p2p/peer.go:NewPeer", "p2p/handshake.go:shakeByHand"]}
{"id": "C89", "title": "The constants of the curve define a group of prime order", "statement": "The field size and the order in constants.go are prime; the points of y^2 = x^3 + 7 with the addition of the curve are a group; G and H are on it; every point of the curve is exactly one multiple of G below the order; and so every law that other properties assume of the curve and of the codecs of points holds of secp256k1.", "quantifier": "all points, scalars, keys, messages and blocks", "why_tests_cant": "the group has about 2^256 elements", "anchors": ["secp256k1zkp/constants.go:48-98", "secp256k1zkp/schnorr.go:signMessage", "secp256k1zkp/schnorr.go:VerifySignature", "secp256k1zkp/schnorr.go:CommitValue"]}
{"id": "C90", "title": "Commitments hide the amount perfectly", "statement": "For every commitment and every amount there is exactly one blinding factor below the order that opens the commitment to that amount, so a commitment to an amount under a uniform blinding factor has the same distribution whatever the amount.", "quantifier": "all blinding factors and amounts", "why_tests_cant": "a statement about every one of 2^256 blinding factors", "anchors": ["secp256k1zkp/schnorr.go:CommitValue"]}
{"id": "C91", "title": "A commitment fixes its amount", "statement": "No commitment opens to two amounts. (Refuted: every commitment opens to every amount. Proved: two openings to different amounts give the discrete logarithm of H to the base G by one division modulo the order.)", "quantifier": "all blinding factors and amounts", "why_tests_cant": "the second opening exists but cannot be found by search", "anchors": ["secp256k1zkp/schnorr.go:CommitValue", "secp256k1zkp/constants.go:48-98"]}
{"id": "C92", "title": "One nonce for two messages reveals the key", "statement": "From two signatures made with the same nonce and key whose challenges differ, the key is computed by one division modulo the order; and any two accepted signatures with the same R and different challenges determine the key up to four candidates.", "quantifier": "all keys, nonces, messages and signatures", "why_tests_cant": "a statement about all keys; tests sign with fresh nonces", "anchors": ["secp256k1zkp/schnorr.go:signMessage", "secp256k1zkp/schnorr.go:VerifySignature"]}
{"id": "C93", "title": "Reading ends at the first bad frame", "statement": "If a peer sends frames of messages and then a wrong magic code, a length above 20,000,000, or a frame of a type the loop does not know, the read loop delivers exactly the messages before it, counts exactly their bytes, and ends with an error, whatever follows and however the stream is split.", "quantifier": "all lists of messages, bad frames, rest of the stream and splittings", "why_tests_cant": "the streams and splittings are unbounded", "anchors": ["p2p/peer.go:readHandler", "p2p/messages.go:Header.Read"]}
{"id": "C94", "title": "Every list received is bounded", "statement": "Whatever bytes a peer sends, every message that decodes, and every message delivered by the read loop, has at most 256 addresses, 14 locator hashes, 512 headers, a million inputs, outputs and kernels each (block, transaction) and 255 outputs and kernels (compact block).", "quantifier": "all byte strings, streams and splittings", "why_tests_cant": "over all inputs, including those no encoder produces", "anchors": ["p2p/messages.go:PeerAddrs.Read", "p2p/messages.go:BlockHeaders.Read", "consensus/locator.go:Read", "consensus/block.go:Read", "consensus/transaction.go:Read"]}
{"id": "C95", "title": "The maps of the pool are not raced for", "statement": "In no execution of the pool, with any number of goroutines using it, are there two accesses to PeersTable, to ConnectedPeers, to BannedPeers, or to the protocol version or last connection time of a record, by different goroutines, at least one a write, that are not ordered by happens-before; counting program order, mutexes and the start of goroutines only.", "quantifier": "all executions at the level of single accesses, any number of goroutines, any schedule", "why_tests_cant": "the race detector sees only the executions that happen", "anchors": ["p2p/pool.go:40-59", "p2p/pool.go:Add", "p2p/pool.go:Ban", "p2p/pool.go:Peers", "p2p/pool.go:connectPeer", "p2p/pool.go:Run", "p2p/sync.go:ProcessMessage"]}
{"id": "C96", "title": "Nothing in the pool is raced for", "statement": "In no execution is there a data race on a variable of the pool. (Refuted: the counter of connections, and of each record the status, the peer, the height, the difficulty and the capabilities are raced for, even if every channel operation ordered everything before it with everything after it. Proved: these are the only ones.)", "quantifier": "all executions at the level of single accesses, any number of goroutines, any schedule", "why_tests_cant": "a race needs a particular interleaving of two goroutines", "anchors": ["p2p/pool.go:Ban", "p2p/pool.go:Peers", "p2p/pool.go:PropagateBlock", "p2p/pool.go:connectPeer", "p2p/pool.go:notConnected", "p2p/sync.go:ProcessMessage"]}
{"id": "C97", "title": "The mutexes alone never deadlock", "statement": "In every state of every execution some goroutine with work left can take a step if channel operations and the network return; whoever waits for a mutex waits for a goroutine that can go on, or for one that waits for such a goroutine.", "quantifier": "all executions at the level of single accesses, any number of goroutines, any schedule", "why_tests_cant": "a deadlock needs a particular interleaving of several goroutines", "anchors": ["p2p/pool.go:Ban", "p2p/pool.go:connectPeer", "p2p/pool.go:Run", "p2p/pool.go:PropagateBlock", "p2p/sync.go:ProcessMessage"]}
{"id": "C98", "title": "A peer can always be brought to its end", "statement": "From every state that the goroutines of a peer can reach, unless the process is down or the read handler is banning the peer, and if the messages waiting to be sent can be encoded, the goroutines that exist can all end: both handlers, every Disconnect, Close, send and WaitForDisconnect return, and the connection is closed. When all have ended, quit was closed once and the wait group is at zero.", "quantifier": "all executions of a peer, any number of goroutines using it", "why_tests_cant": "unbounded interleavings; no test looks at a blocked goroutine's possible continuations", "anchors": ["p2p/peer.go:Start", "p2p/peer.go:writeHandler", "p2p/peer.go:readHandler", "p2p/peer.go:WriteMessage", "p2p/peer.go:Disconnect", "p2p/peer.go:WaitForDisconnect"]}
{"id": "C99", "title": "What one side queues is what the other side's loop passes on", "statement": "Take any execution of a peer and cut the bytes it has written so far anywhere and into any pieces. The read loop that receives them passes on exactly the messages whose frames have arrived whole, each as the sender queued it and in that order (except GetCompactBlock and CompactBlock, which the loop drops), counts the bytes of these frames and no others, and then stops without a crash. If everything written has arrived, at most the message being written is missing.", "quantifier": "all executions of the sending peer, all cuts of its output, all messages that fit a frame", "why_tests_cant": "combines interleavings on one side with every fragmentation on the other", "anchors": ["p2p/peer.go:writeHandler", "p2p/peer.go:readHandler", "p2p/peer.go:WriteMessage", "p2p/protocol.go:WriteMessage", "p2p/messages.go:Header.Read"]}
{"id": "C100", "title": "Every accepted proof of work contains a cycle", "statement": "If verification accepts, some of the edges generated by the nonces form a simple cycle, and from any of the edges one gets to any other through shared vertices; so no forest and no two separate pieces are accepted.", "quantifier": "every key, graph size and nonce list, with no condition on the degrees", "why_tests_cant": "ranges over all graphs; tests try a few edge lists", "anchors": ["cuckoo/cuckoo.go:findCycleLength", "cuckoo/cuckoo.go:Verify"]}
{"id": "C101", "title": "Decoded signatures carry a point of the curve", "statement": "Whatever 64 bytes DecodeSignature is given, the R it returns is a point of secp256k1.", "quantifier": "all 64-byte strings", "why_tests_cant": "half of all coordinates belong to no point; the tests decode only signatures that were made by signing", "anchors": ["secp256k1zkp/schnorr.go:DecodeSignature", "secp256k1zkp/schnorr.go:decompressPoint"]}
{"id": "C102", "title": "A peer that is asked answers with what it was asked for", "statement": "A request made by SendBlockRequest for any 32-byte hash, or by SendHeaderRequest for at most 14, can be sent. A peer that receives it, in whatever pieces, answers with the block stored under the hash (with nothing if there is none), or with the headers stored behind the first hash it knows (with no headers if it knows none or knows its own head first); its chain stays as it is. The asker's read loop hands the answer on; the block has the hash it was asked for. SendHeaderRequest ends the process for exactly the lists a peer would refuse.", "quantifier": "all hashes and hash lists, all storages, all fragmentations", "why_tests_cant": "composes the encoders, the read loop, the message handling and the storage of two nodes", "anchors": ["p2p/peer.go:SendBlockRequest", "p2p/peer.go:SendHeaderRequest", "p2p/sync.go:ProcessMessage", "chain/chain.go:GetBlockHeaders", "chain/chain.go:GetBlock"]}
{"id": "C103", "title": "A genesis block identifies its network", "statement": "The genesis blocks of the five networks have five different hashes, and a node announces the hash of its own one.", "quantifier": "all pairs of networks; all handshakes of the shipped node", "why_tests_cant": "the only test looks at one of the hashes", "anchors": ["chain/chain.go:Testnet1", "chain/chain.go:Mainnet", "p2p/handshake.go:shakeByHand", "cmd/node/main.go:main"]}
{"id": "C104", "title": "Encodings do not depend on the order of items", "statement": "Two blocks (compact blocks, transactions) with the same header (offset) and the same inputs, outputs, kernels and short ids, in whatever order these are held in memory, are encoded as the same bytes.", "quantifier": "all blocks, compact blocks and transactions, all pairs of orders, every sort", "why_tests_cant": "ranges over all permutations and every permutation an unstable sort may leave; tests encode one order", "anchors": ["consensus/block.go:Block.Bytes", "consensus/block.go:CompactBlock.Bytes", "consensus/transaction.go:Bytes", "consensus/transaction.go:Hash"]}
{"id": "C105", "title": "Control messages have exactly one encoding", "statement": "If the reader for an error, shake, ping, pong, address request, header request or block request accepts some bytes, it consumed exactly the bytes that the writer produces for the message it returned. The same is true of hands and address lists in which no IPv6 address was accepted; an accepted IPv6 address is written back as zeros.", "quantifier": "all byte strings and all messages of these types", "why_tests_cant": "ranges over all accepted byte strings, not over those produced by the writer", "anchors": ["p2p/messages.go:Ping.Read", "p2p/messages.go:PeerError.Read", "p2p/messages.go:PeerAddrs.Read", "p2p/messages.go:GetBlock.Read", "p2p/handshake.go:hand.Read", "p2p/handshake.go:shake.Read", "p2p/helpers.go:deserializeTCPAddr", "consensus/locator.go:Read"]}
{"id": "C106", "title": "A stream of frames can be read in only one way", "statement": "If the concatenation of some frames is the beginning of a concatenation of other frames, the former are the first of the latter. Two sequences of messages that are written as the same bytes have the same length, and the messages at the same place are received as the same message.", "quantifier": "all sequences of frames and of messages", "why_tests_cant": "ranges over all pairs of streams", "anchors": ["p2p/messages.go:Header.Write", "p2p/protocol.go:WriteMessage"]}
{"id": "C107", "title": "Run dials new and disconnected addresses first, failed ones otherwise", "statement": "In every execution, the address Run picks is a new or disconnected one of the table; only if there is none it is one whose last dial failed; only if there is none of these either Run dials nobody. As the records change while notConnected looks at them, this holds of each entry at the moment it is looked at, and of all at once only if no status changes meanwhile. Each such address can be the next to be dialled, by steps of Run alone, while slots are free. So a failed address can wait without bound while another one connects and disconnects.", "quantifier": "all executions of the pool, all iteration orders of its maps", "why_tests_cant": "unbounded interleavings; map order is random in Go", "anchors": ["p2p/pool.go:notConnected", "p2p/pool.go:connectPeer", "p2p/pool.go:Run"]}
{"id": "C108", "title": "Which messages can be written", "statement": "Writing a message ends the process with a message in the log exactly for: a hand without an address or with one that has neither 4 nor 16 bytes, more than 256 addresses or one of such a length, more than 14 locators, a block hash that is not 32 bytes long, more than 512 headers, and a header (alone, first unwritable of a list, or of a block) one of whose five hashes is not 32 bytes long. It is a run-time error exactly if the hashes are fine and a bit of the nonces lies beyond the last byte of 42 nonces. Every other message is written; so is every message that was read.", "quantifier": "all messages of all types, all field values", "why_tests_cant": "the conditions cover lists of any length and all nonces; the outcomes end the test process", "anchors": ["p2p/protocol.go:WriteMessage", "p2p/messages.go:PeerAddrs.Bytes", "p2p/messages.go:GetBlock.Bytes", "p2p/messages.go:BlockHeaders.Bytes", "p2p/handshake.go:hand.Bytes", "p2p/helpers.go:serializeTCPAddr", "consensus/block.go:bytesWithoutPOW", "consensus/proof.go:ProofBytes", "consensus/locator.go:Bytes"]}
{"id": "C109", "title": "The table says what peers said, and only addresses that were connected to are handed out", "statement": "When a connection is made, its record gets version 1, height 0 and the total difficulty and capabilities of the handshake. In every state of every execution, each record is either without a connection, version and capabilities, or has the version and capabilities of the connection it names, which Run made to the address before. (Refuted: the connection is written first, and until the other fields are written too the record has the capabilities of an earlier connection, which Peers hands out as those of the connected peer. Proved: this is the only exception. A connection whose handshake gave protocol version 1 is always taken on: Run does nothing else until a goroutine waits for its end. And a peer that asks for any capability is told only addresses that the node itself was connected to and that announced all of them, then or earlier.)", "quantifier": "all executions of the pool, all iteration orders of its maps, all capability masks", "why_tests_cant": "unbounded interleavings", "anchors": ["p2p/pool.go:connectPeer", "p2p/pool.go:Add", "p2p/pool.go:Peers", "p2p/pool.go:Ban"]}
{"id": "C110", "title": "What a handshake makes of its input", "statement": "A node that dials sends its hand in any case; to an IPv4 address these are 102 bytes that are given one by one, with total difficulty 1 whatever the chain. It makes a peer, with the announced capabilities, total difficulty and user agent, exactly if the input starts with a shake of protocol version 1 inside a frame of type 2 that announces enough and at most 20000000 bytes; what follows the shake stays unread. If the announced length of the user agent exceeds 2^48, the process ends with a run-time error: 35 bytes are enough. It never ends through the log. In every other case an error is returned. For the accepting side the same holds with hands (frame type 1, two addresses, 57 bytes), a nonce that is not ours, and an answer that is sent exactly if a peer is made.", "quantifier": "all inputs, all nonces, all addresses of TCP connections, both treatments of IPv6 addresses", "why_tests_cant": "a characterisation of all byte streams; one of the outcomes ends the test process", "anchors": ["p2p/peer.go:NewPeer", "p2p/peer.go:AcceptNewPeer", "p2p/handshake.go:shakeByHand", "p2p/handshake.go:handByShake", "p2p/handshake.go:hand.Read", "p2p/handshake.go:shake.Read"]}
{"id": "C111", "title": "How reading from a peer ends", "statement": "Every stream of bytes from a peer is a sequence of frames that are understood followed by an ending, which has one reason: the end of the stream inside a frame header or a body, a wrong magic code, an announced length above 20000000, a frame that is refused, or a compact block that announces more than 2^48/24 short ids. Whatever the pieces the stream arrives in, the read loop hands over the messages of the former, counts their bytes modulo 2^64, and stops with the error that belongs to the latter; a body that is cut off leaves no error. It panics exactly at such a compact block and never exits the process. A frame is understood exactly if its type is 3 to 13 or 15 and the reader of that type accepts its body, which for a request for a compact block it always does.", "quantifier": "all streams, all ways of cutting them into pieces, both treatments of IPv6 addresses", "why_tests_cant": "a characterisation of all byte streams and all chunkings; one of the outcomes ends the test process", "anchors": ["p2p/peer.go:readHandler", "p2p/messages.go:Header.Read", "consensus/block.go:CompactBlock.Read"]}
{"id": "C112", "title": "What the shipped node says", "statement": "After any sequence of messages from any peers, the node that cmd/node builds answers a ping with height 0 and total difficulty 10, a request for headers with an empty list, a request for peers with a list of peers, and nothing else; the bytes of the first two answers are given. It accepts a block exactly if its hash can be computed and is that of the genesis block or the block passes validation on its own: the parent is never looked at.", "quantifier": "all histories of messages and of the pool, all messages, all blocks, all clocks", "why_tests_cant": "unbounded histories; tests see single answers", "anchors": ["cmd/node/main.go:main", "p2p/sync.go:ProcessMessage", "chain/chain.go:ProcessBlock", "chain/chain.go:GetBlockHeaders", "storage/mysql.go"]}
{"id": "C113", "title": "The wire format of every message", "statement": "The bytes a message is written as are given by tables of offsets: for each of the fourteen kinds of message, which number or byte string stands where, in how many bytes, most significant first, and in which order the items of blocks, compact blocks and transactions follow each other (ascending by hash). The same bytes are read back as the message, except that the inputs of a transaction are written in 33 bytes instead of the 34 the reader expects.", "quantifier": "all messages that can be sent, all values of all fields, lists of any admitted length", "why_tests_cant": "round-trip tests pass with any format that both sides share; a table of offsets for lists of any length is not a test", "anchors": ["p2p/messages.go", "p2p/handshake.go:hand.Bytes", "p2p/handshake.go:shake.Bytes", "p2p/helpers.go:serializeTCPAddr", "consensus/block.go:Block.Bytes", "consensus/block.go:CompactBlock.Bytes", "consensus/block.go:TxKernel.Bytes", "consensus/block.go:Output.Bytes", "consensus/block.go:Input.Bytes", "consensus/transaction.go:Bytes", "consensus/locator.go:Bytes"]}
{"id": "C114", "title": "What passes as a proof of work without being a cycle", "statement": "Every accepted proof of either variant is a trail: starting with the first nonce, its edges can be passed through in one go, leaving each edge alternately at its left and right vertex, so that one comes back to the first edge after an even number of steps and goes on from its left vertex through all the others. Conversely, every cycle with a path of any length hanging off the left vertex of the first nonce's edge is accepted if, of the two other edges there, the one on the cycle has the smaller nonce; none of these is a cycle.", "quantifier": "all keys, all graph sizes, all lists of nonces of any length", "why_tests_cant": "quantifies over all graphs; C22 shows one such proof only", "anchors": ["cuckoo/cuckoo.go:findCycleLength", "cuckoo/cuckoo.go:Cuckaroo.Verify", "cuckoo/cuckoo.go:Cuckoo.Verify"]}
{"id": "C115", "title": "Which check a block fails first", "statement": "Headers, blocks and blocks with a known parent are answered by the first rule they break in a fixed order: version, clock, graph size, scaling, proof of work; outputs and kernels present, inputs, outputs and kernels sorted, number of coinbase outputs, range proofs, the signature of the first coinbase kernel, number of coinbase kernels; time after the parent, a crash if the parent's proof hash starts with 64 zero bits, total difficulty, difficulty. An accepted header's nonces are increasing, in range and contain a cycle in the graph keyed by the hash of the first 246 bytes of its wire form; nonces that are a cycle, or a cycle with a path as in C114, suffice.", "quantifier": "all headers, blocks and parents with the right field sizes, all clocks, all storages", "why_tests_cant": "a block may break any subset of seventeen rules; tests break one at a time", "anchors": ["consensus/block.go:BlockHeader.Validate", "consensus/block.go:Block.Validate", "consensus/block.go:verifyCoinbase", "consensus/block.go:verifyKernels", "chain/chain.go:ProcessBlock"]}
{"id": "C116", "title": "The record being dialled is not connected", "statement": "In every execution, from the moment connectPeer has locked a record to the moment it stores the new connection, the record is not marked connected, so its second reason not to dial never applies. Only storing the connection marks a record connected and only Add makes one new.", "quantifier": "all executions of the pool", "why_tests_cant": "needs an invariant over all interleavings with bans, additions and disconnects", "anchors": ["p2p/pool.go:connectPeer", "p2p/pool.go:notConnected", "p2p/pool.go:Ban"]}
{"id": "C117", "title": "Peers filters what it returns, also while records change", "statement": "Whatever Peers returns while other goroutines run was, at some moment of the call, neither banned nor failed. (False: Status is read twice without the record's lock; an address that is failed at the first read and banned at the second is returned. True: it was not banned at one moment, not failed at a later one and had the capabilities at a third; there are at most 256; and of fewer than 256 none is missing that was eligible throughout.)", "quantifier": "all executions of the pool, all moments of the reads, all iteration orders, all capabilities", "why_tests_cant": "depends on the interleaving of single reads with a ban", "anchors": ["p2p/pool.go:Peers", "p2p/pool.go:Ban"]}
{"id": "C118", "title": "Half of all nonces make signatures that do not survive being sent", "statement": "Of each nonce k and n - k exactly one makes a signature that still verifies after Bytes and DecodeSignature, for every key and message whose challenge times key is not 0 modulo n. The nonces that are safe for every key and message are exactly (n - 1)/2 of the n - 1 there are. So there are such lost signatures on secp256k1 itself.", "quantifier": "all keys, messages and nonces, any curve with the group laws, and secp256k1", "why_tests_cant": "a test with one nonce passes or fails by chance; the count is over 2^256 nonces", "anchors": ["secp256k1zkp/schnorr.go:DecodeSignature", "secp256k1zkp/schnorr.go:SignMessage", "secp256k1zkp/schnorr.go:VerifySignature"]}
{"id": "C119", "title": "A valid block is relayed intact whichever Go built the node", "statement": "Every peer that a valid block is relayed to is sent its lists, with the sort.Sort of any Go release. (Refuted for the releases before 1.19: a list of a valid block with more than 12 elements of different hashes can lose its first element for every peer, because the pivot selection of quicksort exchanges elements of lists that are in order. Proved: up to 12 elements the lists are sent in every interleaving, and from 1.19 on lists of every length.)", "quantifier": "all valid blocks, lists of any length, numbers of peers and interleavings, whatever the sort does after what is modelled", "why_tests_cant": "the outcome depends on the toolchain, on the length of the list and on the interleaving of writers", "anchors": ["consensus/block.go:Bytes", "consensus/block.go:Swap", "p2p/pool.go:PropagateBlock", "p2p/peer.go:writeHandler"]}
{"id": "C120", "title": "A relayed block goes to peers that are behind, whatever happens meanwhile", "statement": "Of the connections that are up when a block is accepted, it is sent to those that are behind it, and not to the one that it came from, however the goroutines that send it are interleaved with other messages, disconnections and connections. (Refuted in three ways: for every node and accepted block, if the sender's next message is a ping that says less than the block, as the pings of this program do, and the goroutine runs after it, then the block is sent back; a block can be sent to a connection made later whose peer is not behind; and a peer that is behind all the time can be left out. Proved: the record was behind at one of the moments at which it was read, and the block goes to the connection it names at the last; and if the height is too low all the time, or the difficulty, it is sent.)", "quantifier": "all executions of the pool, all moments of the three reads, all nodes, blocks and pings", "why_tests_cant": "unbounded interleavings of goroutines that are started for each peer", "anchors": ["p2p/pool.go:PropagateBlock", "p2p/sync.go:ProcessMessage", "p2p/pool.go:connectPeer"]}
{"id": "C121", "title": "Critical sections of the pool's mutexes are atomic", "statement": "Whatever goroutines do while they hold ptmu, cpmu or bnmu happens as if nothing happened in between: for every execution there is one in which every goroutine does and sees the same, in the same order, the variables and channels end up the same, and no such section is interrupted. (Proved for the sections that only use the map behind their mutex, which are all but those of Peers, notConnected, PropagateBlock and Run after Stop. Refuted for Peers: a record's status can be written between two reads of it, with a result that no uninterrupted scan has. Sections that start goroutines are left out.)", "quantifier": "all executions of any number of goroutines, whatever values are written and whatever is in the variables at first", "why_tests_cant": "quantifies over all interleavings and over all values; it is what allows treating a section as one step", "anchors": ["p2p/pool.go:Add", "p2p/pool.go:Ban", "p2p/pool.go:IsBan", "p2p/pool.go:PeerInfo", "p2p/pool.go:Peers", "p2p/pool.go:connectPeer"]}
{"id": "C122", "title": "A chain whose blocks declare what they have to keeps its difficulty", "statement": "If every block of a chain declares the least difficulty that NextDifficulty allows, the declared difficulty stays near what was worked. (Refuted: after 71 blocks the required difficulty is half the average of the oldest 60 of them, at least 1, whatever their times and proofs; so it halves every 71 blocks and is 1 from the 4402nd on, whatever it was. There is such a chain after any 71 blocks. And higher declared difficulties can require less, through overflow of 64 bits.)", "quantifier": "all windows of 71 blocks, all chains of any length and all starting difficulties", "why_tests_cant": "the effect takes thousands of blocks to show, and is for all starting points", "anchors": ["consensus/difficulty.go:NextDifficulty", "chain/chain.go:ProcessBlock"]}
{"id": "C123", "title": "Lines of accepted blocks are linked, add up, and are no more than the seconds there were", "statement": "If blocks are accepted one on top of the other, then there are at most as many of them as seconds from the time of the first to the clock at the acceptance of the last, plus 720; the total difficulty of the last is that of the first and the difficulties of all proofs but the last, modulo 2^64; and, with a storage that finds the block that was asked for, heights count up modulo 2^64 and each block names the hash of the one before.", "quantifier": "all lines of accepted blocks of any length, all clocks and storages", "why_tests_cant": "unbounded sequences of blocks with proofs of work, over any storage", "anchors": ["chain/chain.go:ProcessBlock", "consensus/block.go:Validate"]}
{"id": "C124", "title": "A full peers table makes room for new addresses", "statement": "When the table of peers has reached its bound, addresses that are of no use leave it, so that new ones are still learnt. (Refuted: in every execution of the pool as it is started every address stays in the table for ever, so from more than 10000 on the table never changes and no other address is ever dialled. One peer can fill it: more than 10000 different made-up addresses, in messages of up to 256, do that from any table and whatever is added meanwhile, and all the messages are served.)", "quantifier": "all executions of the pool; all nodes, tables, floods of addresses, chunkings and interference", "why_tests_cant": "it is a statement about all later executions, after thousands of messages", "anchors": ["p2p/pool.go:Add", "p2p/pool.go:Ban", "p2p/sync.go:ProcessMessage", "p2p/pool.go:notConnected"]}
{"id": "C125", "title": "The first block after each network's genesis block is later and adds its work", "statement": "A block that is accepted on top of the genesis block of a network is later than that, and its total difficulty is larger by the work of a proof. (The conditions are proved exactly: the block satisfies the rules, is later than the second given in the genesis block, declares enough, and has one total difficulty, which with BLAKE2b is 15 on Testnet1, 5 on Testnet2, 30000 on Testnet3, 1856000000 on Testnet4 and 1005 on Mainnet. Refuted that it adds work: on Testnet3 and Testnet4 this is the total difficulty of the genesis block itself.)", "quantifier": "all blocks, storages, clocks and heads, for each of the five networks", "why_tests_cant": "finding a block that is accepted needs a proof of work; the statement is about all of them", "anchors": ["chain/chain.go:Testnet4", "chain/chain.go:Mainnet", "chain/chain.go:ProcessBlock", "consensus/proof.go:ToDifficulty"]}
{"id": "C126", "title": "A peer that does not read is given up", "statement": "If a peer does not read what it is sent, the goroutines that send to it return after a bounded time, and their number is bounded. (Refuted: while the write does not return and nobody calls Stop or Ban, no send returns; once the read handler has something to answer nothing changes any more but that further goroutines come to wait, so not even the end of what the peer sends is noticed. Any number of them can be waiting. Another peer makes them by sending a block at the height of the chain again and again: each time one is started for every connection that is behind; on Testnet4 a copy of the genesis proof is enough. Proved: if writes return, every waiting send can.)", "quantifier": "all executions of a peer, any number of senders and messages; all nodes and blocks", "why_tests_cant": "needs a peer that never reads and unboundedly many goroutines; TCP buffers hide it in short tests", "anchors": ["p2p/peer.go:writeHandler", "p2p/peer.go:WriteMessage", "p2p/protocol.go:WriteMessage", "p2p/pool.go:PropagateBlock", "p2p/sync.go:ProcessMessage"]}
{"id": "C127", "title": "What the pool's goroutines do step by step is what they do access by access", "statement": "For every execution of the pool's machine there is one of the goroutines as lists of lock operations and single accesses: after the users are started, each step is a list of events of one goroutine, that of Run for the steps of Run, which writes every variable the step changes, uses the channels whose content changes, and starts a goroutine where there are more; and at the end the same records and the table are locked. Left out are only recordings of a height and difficulty without a handler, or while Run goes through the table, which the pool's machine allows and the code does not.", "quantifier": "all executions of the pool's machine of any length, however the addresses, peers, bans and calls come", "why_tests_cant": "it relates two views of all interleavings; a race detector sees the accesses of one", "anchors": ["p2p/pool.go:Run", "p2p/pool.go:connectPeer", "p2p/pool.go:notConnected", "p2p/pool.go:Ban", "p2p/pool.go:Add", "p2p/pool.go:Stop", "p2p/sync.go:ProcessMessage"]}
{"id": "C128", "title": "Once a disconnect has begun, everything ends, whatever the schedule", "statement": "From the first successful compare-and-swap of Disconnect on, and as long as nobody else starts to use the peer: in whatever order the goroutines run, they take at most 24 steps, 4 for each other goroutine and 6 for each send, ban and lock that the handler starts; at most one more message is read; and when nobody can go on, both handlers, every sender, every waiter and every Disconnect have returned, the connection is closed and the lock is free, unless the handler bans its own peer, which then waits for ever or ends the process (C44), waits for the lock that its closer holds (C75), or a message that cannot be encoded has ended the process. If the handler neither bans nor locks, only the last remains.", "quantifier": "all executions of a peer and all schedules, without fairness; any number of senders, waiters and disconnects", "why_tests_cant": "an upper bound over all interleavings; C43 is about states in which nobody can go on, not about reaching one", "anchors": ["p2p/peer.go:Disconnect", "p2p/peer.go:readHandler", "p2p/peer.go:writeHandler", "p2p/peer.go:WaitForDisconnect", "p2p/peer.go:SendPing", "p2p/pool.go:Ban", "p2p/pool.go:Stop"]}
{"id": "C129", "title": "A peer that is used before it is started", "statement": "connectPeer stores a peer in the record before it starts it, so that Ban and relays can use it earlier. Whatever they do then: nothing takes the process down; after Start everything is as if they had done it after Start, except that a Disconnect may have returned without waiting; where nobody can go on all have returned and the connection is closed, unless the handler bans its own peer; and if the peer was disconnected before Start its handlers leave without reading from or writing to the connection.", "quantifier": "all executions before and after Start, any number of callers, for each moment of Start", "why_tests_cant": "a window of a few instructions between storing and starting the peer", "anchors": ["p2p/peer.go:Start", "p2p/peer.go:Disconnect", "p2p/peer.go:NewPeer", "p2p/pool.go:connectPeer", "p2p/pool.go:Ban"]}
{"id": "C130", "title": "The pool together with its peers", "statement": "Put together, where the goroutine that waits for the end of a connection goes on when WaitForDisconnect has returned on its peer: the pool does exactly what it does when that may return at any time, and each peer what a single peer does; at most 15 peers have a handler in its loop at a time, so at most 30 handlers are, and so many are possible; the pool does not clean up behind a connection, or give its slot to another, before both its handlers have left their loops and its quit channel is closed.", "quantifier": "all executions of the pool with any number of connections, one after another and at the same time, whatever their peers and others do", "why_tests_cant": "it is about all interleavings of the pool and of all its peers", "anchors": ["p2p/pool.go:Run", "p2p/pool.go:connectPeer", "p2p/peer.go:Start", "p2p/peer.go:WaitForDisconnect", "p2p/peer.go:Disconnect", "p2p/peer.go:readHandler", "p2p/peer.go:writeHandler"]}
{"id": "C131", "title": "After Stop no connection is left over", "statement": "When Run has ended after Stop and the goroutines that it started to close the connections have ended, every peer that was ever stored has been disconnected, or is being disconnected; and when no peer can go on, all its goroutines have returned and its connection is closed, but for a read handler that bans its own peer. (With a made map of banned addresses this would be false: when Run connects to an address again while Ban is called for it, Ban closes the previous peer and takes the address out of the table, and nobody closes the new one.)", "quantifier": "all executions of the pool with its peers, whatever is added, banned and sent, unless the process ends before (C44, C54)", "why_tests_cant": "the connection that is left over needs a Ban in the middle of a dial", "anchors": ["p2p/pool.go:Run", "p2p/pool.go:Stop", "p2p/pool.go:Ban", "p2p/pool.go:connectPeer", "p2p/peer.go:Close", "p2p/peer.go:Disconnect"]}
{"id": "C132", "title": "A call of Ban returns, and then the address is recorded", "statement": "Ban of an address in the table returns, and from then on IsBan says yes, whatever else goes on in the pool. (As shipped false: the record of bans is never made, so such a call never returns under any schedule; it ends the process or waits for ever. With a made record true of every call that returns.) Run alone, the goroutine of Ban does exactly what the sequential function of the model does: it returns, or takes the process down, at the same place and with the same pool.", "quantifier": "all executions of the pool, all addresses, any number of calls of Ban at once", "why_tests_cant": "a test calls Ban once and alone, in one state", "anchors": ["p2p/pool.go:Ban", "p2p/pool.go:IsBan"]}
{"id": "C133", "title": "What a connection does to the pool are steps of the pool", "statement": "Whatever message ProcessMessage handles while the other goroutines have rest, the pool it leaves is one that calls of Add and Ban and writes to the record of the sender lead to in the concurrent model, with no other goroutine moved; if these end the process ProcessMessage panics, and if it returns nothing is left half done. So whatever bytes a connection delivers, in whatever pieces, and whatever the others do between its messages, the pool is always one that the concurrent model can have, and every invariant of that holds of it.", "quantifier": "all messages, node states, byte streams and splittings, all states of the pool that can be reached", "why_tests_cant": "ties the sequential model of a connection to the concurrent one of the pool; a test runs one of the two", "anchors": ["p2p/sync.go:ProcessMessage", "p2p/pool.go:Ban", "p2p/pool.go:Add", "p2p/peer.go:readHandler"]}
{"id": "C134", "title": "What a shake announces is what the record holds", "statement": "Whenever NewPeer returns a peer, whatever was received, connectPeer goes on to record it: the version check behind it never refuses anything. If the bytes from a dialled address start with a shake, then six steps of Run later the record of that address is connected, with version 1, height 0 and the capabilities and total difficulty of the shake, the connection is counted, and what follows the shake is left to the read handler.", "quantifier": "all inputs, all executions of the pool, all addresses", "why_tests_cant": "composes the parser of the handshake with the steps of the pool, for all inputs", "anchors": ["p2p/pool.go:connectPeer", "p2p/peer.go:NewPeer", "p2p/handshake.go"]}
{"id": "C135", "title": "Stop can bring everything to its end, but for three known cases", "statement": "Whatever the pool and its peers have got to: if no read handler is in Ban on its own peer, everything that is still to be sent can be encoded, and every listed address has had a connection, then Stop (if it was not called yet) can be followed by steps that end Run, every goroutine it started and every goroutine of every peer, and close every connection, without a crash; no set of goroutines of the pool and its peers waits for each other. As shipped the first and the last condition are needed once Run has ended: a peer that bans itself, or a listed address that never had a connection, leaves no way to the end.", "quantifier": "all executions of the pool with any number of peers, all interleavings", "why_tests_cant": "absence of deadlock across the locks, channels and wait groups of all goroutines in all interleavings; a test sees one schedule", "anchors": ["p2p/pool.go:Stop", "p2p/pool.go:Run", "p2p/pool.go:connectPeer", "p2p/peer.go:Disconnect", "p2p/peer.go:WaitForDisconnect"]}
{"id": "C136", "title": "How the handling of a message ends", "statement": "For every message a peer can send to a node whose record of the peer is in place and whose stored blocks can be hashed: the handler panics exactly if the message is a transaction and there is no mempool (or the mempool panics), or a block within the rules on a stored, earlier parent whose proof hashes to 64 zero bits, or something refused while the address that the connection reports is listed with a record that has no connection, or one that closes while the map of bans is nil. It does not return exactly if something is refused while that address is listed with a connection that does not close. It ends the process only if the mempool does. A message from a peer whose address is not in the table always ends the process.", "quantifier": "all messages from the wire, all nodes, all storage backends, all clocks and all states of the pool", "why_tests_cant": "the panicking cases need hashes no test can find and states of the table no test sets up; that there are no others is a statement about all messages", "anchors": ["p2p/sync.go:ProcessMessage", "chain/chain.go:ProcessBlock", "p2p/pool.go:Ban", "consensus/proof.go:ToDifficulty"]}
{"id": "C137", "title": "Attempts are given up, bans go through and Stop succeeds for known reasons only", "statement": "Run gives an attempt to connect up for four reasons only: more than 15 connections are counted, the address is not listed any more, NewPeer failed (and the record says so), or the peer has another version; it goes on only with a listed address and the record listed for it. A call of Ban does not get past Close before the record has had a connection. Stop closes the channel once: it succeeds exactly if it was not called before, and panics exactly if it was.", "quantifier": "all executions of the pool, all interleavings", "why_tests_cant": "about every step of every interleaving", "anchors": ["p2p/pool.go:connectPeer", "p2p/pool.go:Ban", "p2p/pool.go:Stop"]}
{"id": "C138", "title": "Which goroutine touches which shared variable", "statement": "There is an exact table of the shared variables of the pool that each kind of goroutine reads and writes. In particular the version and the time of the last connection are written by main alone and never read; only Run and the goroutines that wait for a disconnect touch the number of connections and write the table of connected peers; a goroutine that relays a block writes nothing and reads three fields of one record.", "quantifier": "all goroutines, all paths through them", "why_tests_cant": "a race detector reports the accesses that happen in one run, not those that can", "anchors": ["p2p/pool.go", "p2p/sync.go:ProcessMessage", "p2p/peer.go:readHandler"]}
{"id": "C139", "title": "An endpoint is listed under one name, by which a ban reaches it", "statement": "An IPv4 endpoint is listed under one name, and a ban of the address that a connection to it reports reaches its record. (Refuted for names that callers can give: 127.0.0.1:013414 is listed beside 127.0.0.1:13414 although both are the same endpoint, and a peer listed only under such a name can send refused headers without being banned. Proved for the names that addresses from the wire and the shipped seed have: the text of an endpoint is its usual notation, which resolves to it in every Go release, is that of no other endpoint, and is what the connection reports; so there the ban always reaches the record, which ends the read handler as shipped. What a node tells, another node lists in that notation.)", "quantifier": "all IPv4 endpoints and ports, all names, whatever other texts resolve to, all pools and nodes", "why_tests_cant": "2^48 endpoints, and all texts that might stand for them", "anchors": ["p2p/sync.go:ProcessMessage", "p2p/pool.go:Add", "p2p/pool.go:Ban", "p2p/peer.go:NewPeer"]}
{"id": "C140", "title": "Under a fair scheduler, a peer that begins to end ends", "statement": "In every endless run of a peer in which no goroutine that can go on is passed over for ever, nothing crashes and the handling of each message comes to an end: once Disconnect has been called or a handler has left its loop (a failed read or write is enough), there is a moment from which on both handlers have ended and the connection is closed, and every call of Disconnect, WriteMessage or WaitForDisconnect, also one made later, returns. The exception is a read handler that bans its own peer: there is a fair run in which it never ends.", "quantifier": "all fair endless executions, any number of goroutines that use the peer, all interleavings", "why_tests_cant": "liveness: no finite run refutes it, and a test sees one schedule", "anchors": ["p2p/peer.go:Disconnect", "p2p/peer.go:writeHandler", "p2p/peer.go:readHandler", "p2p/peer.go:WaitForDisconnect", "p2p/peer.go:WriteMessage"]}
{"id": "C141", "title": "After Stop, Run stops and makes no further attempts", "statement": "After Stop, Run stops and makes no further attempts to connect. (Refuted: the select prefers no case, so that with one listed address that cannot be reached there is a run in which Run is never kept waiting and dials it for ever. Proved: if NewPeer and the sends to new peers return and the scheduler does not pass Run over, it always comes back to its select; and if a select that comes round again and again with quit closed takes that case at some time, as Go's does with probability 1, Run stops for good.)", "quantifier": "all endless executions of the pool, all interleavings", "why_tests_cant": "liveness: no finite run refutes it, and a test sees one schedule and one sequence of choices", "anchors": ["p2p/pool.go:Run", "p2p/pool.go:Stop", "p2p/pool.go:connectPeer"]}
{"id": "C142", "title": "Under a fair scheduler, a connection of the pool that begins to end is cleaned up", "statement": "In every endless run of the pool with its peers, what happens to the peer of one connection is a run of a peer by itself, whatever Run, Stop, bans and the other peers do. So, with the fairness of C140 for that peer: once Disconnect has been called on it or one of its handlers has left its loop, both handlers end, the connection is closed and the call of WaitForDisconnect in the pool returns; and if the goroutine behind it is not left waiting by the scheduler, by the lock of the record or by the channel, it comes to its end, which frees the place of the connection. Such runs exist from every state from which the pool can be brought to its end.", "quantifier": "all fair endless executions of the pool with any number of peers, all interleavings", "why_tests_cant": "liveness of many goroutines at once: no finite run refutes it", "anchors": ["p2p/pool.go:connectPeer", "p2p/pool.go:Run", "p2p/peer.go:WaitForDisconnect", "p2p/peer.go:Disconnect"]}
{"id": "C143", "title": "After Stop, under a fair scheduler, every goroutine that Run starts to close connections ends", "statement": "In every endless run of the pool with its peers that is fair as in C140-C142, in which nothing crashes, no read handler bans its own peer and the handling of each message comes to an end: once Stop has been called there is a moment from which on Run has stopped and every goroutine that it started to close connections has ended; the connection of each record that had one is closed, both handlers of its peer have ended, and the goroutine that cleans up after it has too. Such runs exist from every state from which the pool can be brought to its end. That the handling of messages ends is a real condition: without it there is a run, fair in all other respects, in which the closing goroutine holds the lock of the record for ever; C75 gives the case in which the handler waits for that lock.", "quantifier": "all fair endless executions of the pool with any number of peers, all interleavings", "why_tests_cant": "liveness of many goroutines at once: no finite run refutes it", "anchors": ["p2p/pool.go:Run", "p2p/pool.go:Stop", "p2p/peer.go:Close", "p2p/peer.go:Disconnect"]}
