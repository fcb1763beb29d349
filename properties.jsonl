{"id": "C01", "title": "Peer IDs survive the wire", "statement": "For every peer ID whose host is a 16-byte net.IP, UnmarshalID applied to Marshal(id), followed by any trailing bytes, succeeds and returns an ID with the same public key, host, port and Address; Marshal always yields exactly Size() = 50 bytes and two IDs with equal encodings have equal key, host and port.", "quantifier": "every 32-byte key, every 16-byte host, every 16-bit port, every trailing byte string", "why_tests_cant": "the domain has 2^400 IDs; quick.Check only samples it", "anchors": ["id.go: NewID, ID.Size, ID.Marshal, UnmarshalID"]}
{"id": "C02", "title": "Peer IDs with 4-byte (IPv4) hosts survive the wire", "statement": "The ID documentation promises an 'IPv4/IPv6 host'. For every ID whose host is a 4-byte net.IP (what a TCP listener bound to an IPv4 host reports), a peer decoding the ID obtains the same Address the sender announced.", "quantifier": "every key, every 4-byte host, every port", "why_tests_cant": "no test binds a node to a concrete IPv4 interface; a sample of 16-byte hosts never shows it", "anchors": ["id.go: ID.Marshal, UnmarshalID", "node.go: Listen (n.host = addr.IP)"]}
{"id": "C03", "title": "Decoders are total on hostile bytes", "statement": "UnmarshalID, unmarshalMessage, DecodeMessage, UnmarshalFindNodeRequest and UnmarshalFindNodeResponse return a value or an error on every byte string and never panic with an index or slice out of range; each accepts exactly the byte strings that are long enough (and, where required, of the exact size).", "quantifier": "every byte string received from the network", "why_tests_cant": "hostile input is unbounded; a fuzzer only samples it", "anchors": ["id.go: UnmarshalID", "msg.go: unmarshalMessage", "codec.go: decode", "kademlia/msg.go: UnmarshalFindNodeRequest, UnmarshalFindNodeResponse"]}
{"id": "C04", "title": "Hex key loading", "statement": "LoadKeysFromHex(k.String()) = k for every private key; for every string it succeeds exactly when the string consists of 128 hexadecimal digits, it never panics, and a well-formed hex string of another length is reported as io.ErrUnexpectedEOF.", "quantifier": "every private key and every input string", "why_tests_cant": "infinitely many strings; tests use one literal", "anchors": ["keys.go: LoadKeysFromHex, PrivateKey.String, PublicKey.String"]}
{"id": "C05", "title": "Typed messages round-trip between nodes with the same registration order", "statement": "After any sequence of RegisterMessage calls of distinct value types (up to 65536), opcodes are pairwise distinct and are the registration positions; EncodeMessage on one node followed by DecodeMessage on any node that registered the same types in the same order yields what the type's own decoder yields on its own Marshal output; an unregistered type is refused by EncodeMessage and an unassigned opcode by DecodeMessage.", "quantifier": "every registration history, every registered type, every message value, every decoder function", "why_tests_cant": "tests register one or two types; the claim is about all histories", "anchors": ["codec.go: register, encode, decode", "node.go: RegisterMessage, EncodeMessage, DecodeMessage"]}
{"id": "C06", "title": "Typed messages round-trip for every type RegisterMessage accepts", "statement": "RegisterMessage accepts any Go type implementing Serializable; once it returned an opcode, a message of that type can be encoded and is decoded by that type's decoder, however many types are registered later.", "quantifier": "every registration history including more than 65536 types and pointer types", "why_tests_cant": "the 16-bit counter wrap needs 65537 distinct types, out of reach of a unit test; pointer types are simply never tried", "anchors": ["codec.go: register (counter uint16), encode (Ptr/Elem)"]}
{"id": "C07", "title": "Frames survive any chunking of the byte stream", "statement": "For every sequence of messages written to a connection whose encoded sizes are within the receiver's limit, and every way the network splits the resulting byte stream into chunks, the receiver reads back exactly that sequence of (nonce, data) messages, in order, then reports EOF; a stream cut inside a frame yields an error and no partial message.", "quantifier": "every message sequence, nonce, payload and chunking", "why_tests_cant": "TCP segmentation is not under test control", "anchors": ["client.go: read, write, writeLoop, recvLoop", "msg.go: marshal, unmarshalMessage"]}
{"id": "C08", "title": "Receive size limit", "statement": "With a limit L set (1 <= L <= 2^32-5), a frame announcing more than L bytes is refused with ErrMessageTooLarge before any payload byte is consumed, every frame of at most L bytes is accepted whole, and reading never panics and never writes outside the receive buffer.", "quantifier": "every limit in range, every header, every stream", "why_tests_cant": "limit x size boundary pairs are unbounded", "anchors": ["client.go: newClient (readerBuf), read", "error.go: ErrMessageTooLarge", "node_options.go: WithNodeMaxRecvMessageSize"]}
{"id": "C09", "title": "A zero receive limit disables the limit", "statement": "WithNodeMaxRecvMessageSize documents that zero disables the limit: a node configured with 0 accepts frames of any size without crashing.", "quantifier": "every frame size", "why_tests_cant": "needs the panic to be observed in a reader goroutine; no test configures 0", "anchors": ["client.go: newClient (readerBuf size 4+0), read", "node_options.go: WithNodeMaxRecvMessageSize"]}
{"id": "C10", "title": "Encryption is independent of buffer capacity and aliasing", "statement": "For every plaintext, nonce and every capacity and stale content of the reused write buffer, encrypting yields exactly nonce ++ Seal(nonce, plaintext), without panic; decrypting it yields the plaintext; decrypting fewer bytes than a nonce is an error; anything accepted by decryption was accepted by the AEAD's Open.", "quantifier": "every plaintext, nonce, buffer capacity and stale buffer content", "why_tests_cant": "in-place encryption bugs depend on cap/len coincidences of a reused buffer", "anchors": ["aead.go: extendFront, extendBack, encryptAEAD, decryptAEAD", "client.go: writeLoop (buf reuse)"]}
{"id": "C11", "title": "AEAD nonces do not repeat under one session key", "statement": "No two messages are ever encrypted with the same nonce under the same session key by the two endpoints of a connection.", "quantifier": "every pair of processes and every message history", "why_tests_cant": "nonce repetition is not visible in functional tests", "anchors": ["aead.go: encryptAEAD (math/rand)"]}
{"id": "C12", "title": "XOR metric", "statement": "For keys of equal length: comparing XOR(a,t) with XOR(b,t) bytewise orders a and b exactly as the integer distances a xor t and b xor t; distance is symmetric, zero only for equal keys, satisfies the triangle inequality and is unidirectional (for each key and distance exactly one key at that distance); PrefixLen(XOR(a,b)) is the length of the common bit prefix of a and b.", "quantifier": "all byte strings of equal length", "why_tests_cant": "2^512 pairs", "anchors": ["kademlia/binary.go: XOR, PrefixLen"]}
{"id": "C13", "title": "PrefixDiff", "statement": "PrefixDiff(a,b,n) is documented to count the equal prefixed bits of a and b; for all a, b of equal length and n it equals the length of the common prefix within the first n bits.", "quantifier": "all byte strings and n", "why_tests_cant": "no test calls it", "anchors": ["kademlia/binary.go: PrefixDiff"]}
{"id": "C14", "title": "SortByDistance", "statement": "SortByDistance returns a permutation of its input in non-decreasing XOR distance to the given key; when public keys are pairwise distinct the result is unique, so it does not depend on the sorting algorithm.", "quantifier": "every list of IDs and every key", "why_tests_cant": "all list sizes and orders", "anchors": ["kademlia/binary.go: SortByDistance"]}
{"id": "C15", "title": "Routing table structure", "statement": "After every history of Update/Delete/DeleteByAddress on a new table: NumEntries equals the length of Entries; no two entries share a public key; the zero key is never an entry; every bucket holds at most 16 entries and all entries of a bucket share with the target the same common-prefix length with self; Recorded(k) holds exactly for the keys in Entries; no operation panics except Last on an empty bucket.", "quantifier": "every self ID and every history of table operations", "why_tests_cant": "all histories, all keys", "anchors": ["kademlia/table.go: NewTable, Update, Delete, DeleteByAddress, Recorded, Bucket, Entries, NumEntries, getBucketIndex"]}
{"id": "C16", "title": "Routing table update order (least-recently-seen at the tail)", "statement": "Update of a new key into a non-full bucket puts it at the head and returns true; Update of a recorded key moves the recorded entry to the head and returns false; Update into a full bucket fails with ErrBucketFull and changes nothing; Delete removes exactly that key; no operation touches any other bucket or the relative order of other entries.", "quantifier": "every reachable table, every key", "why_tests_cant": "all reachable tables", "anchors": ["kademlia/table.go: Update, Delete, DeleteByAddress, Last, Bucket"]}
{"id": "C17", "title": "A peer that reconnects under a new address is recorded under it", "statement": "After Update(id) returns without error, the table entry for id's public key carries id's current address.", "quantifier": "every reachable table and every ID", "why_tests_cant": "needs a peer to change address mid-test", "anchors": ["kademlia/table.go: Update"]}
{"id": "C18", "title": "Peers returns the closest peers", "statement": "Peers() returns min(16, number of entries other than self) distinct entries, sorted by XOR distance to self, such that every entry not returned is at least as far from self as every returned one; self is never returned.", "quantifier": "every reachable table", "why_tests_cant": "all reachable tables", "anchors": ["kademlia/table.go: Peers, FindClosest"]}
{"id": "C19", "title": "FindClosest returns the k closest entries to any target", "statement": "FindClosest(target, k) returns the k entries (other than target) with smallest XOR distance to target, sorted.", "quantifier": "every reachable table, target and k", "why_tests_cant": "the failing tables are a thin slice of all tables", "anchors": ["kademlia/table.go: FindClosest"]}
{"id": "C20", "title": "Eviction policy of Ack", "statement": "Ack(id): a recorded peer is moved to the head of its bucket; an unrecorded one is inserted at the head when its bucket has room; with a full bucket the tail entry is pinged, is kept (and id refused) when it answers with a pong, and is evicted and replaced by id at the head otherwise; nothing else in the table changes.", "quantifier": "every reachable table, every ID and every ping outcome", "why_tests_cant": "ping outcomes x table states are unbounded", "anchors": ["kademlia/protocol.go: Ack", "kademlia/table.go: Update, Last, Delete"]}
{"id": "C21", "title": "The node's own entry survives peer eviction", "statement": "No sequence of Ack calls, with any ping outcomes, removes the node's own ID from its routing table.", "quantifier": "every history of Ack calls and ping outcomes", "why_tests_cant": "needs adversarial keys close to self", "anchors": ["kademlia/protocol.go: Ack", "kademlia/table.go: getBucketIndex"]}
{"id": "C22", "title": "Kademlia events mirror the routing table", "statement": "Replaying OnPeerAdmitted/OnPeerActivity/OnPeerEvicted in the order they were issued reconstructs exactly the set of peers (other than self) recorded in the table.", "quantifier": "every history of Acks, failed dials and ping outcomes; every interleaving of two of them", "why_tests_cant": "schedules", "anchors": ["kademlia/protocol.go: Ack, OnPingFailed", "kademlia/events.go: Events"]}
{"id": "C23", "title": "FIND_NODE messages round-trip", "statement": "UnmarshalFindNodeResponse(Marshal(r)) = r for every response of at most 255 IDs with 16-byte hosts (every response a node produces has at most 16); FindNodeRequest round-trips for every target; buffers with a missing or truncated ID are refused.", "quantifier": "every response and every target", "why_tests_cant": "all lists of IDs", "anchors": ["kademlia/msg.go: FindNodeRequest, FindNodeResponse"]}
{"id": "C24", "title": "Discovery queries every peer at most once", "statement": "During one Find, under every schedule of its goroutines and every (even hostile) set of responses: no public key is sent more than one FIND_NODE request, the node never queries itself, and the returned list has pairwise distinct public keys, only peers that answered, sorted by distance to the target, at most maxNumResults of them.", "quantifier": "every schedule, every network behaviour, every option value", "why_tests_cant": "schedules and hostile responses", "anchors": ["kademlia/iterator.go: Find, init, iterate, processLookupBucket, lookupRequest"]}
{"id": "C25", "title": "Discovery terminates", "statement": "Find never deadlocks: in every reachable state that is not finished some goroutine can step; and every schedule is finite when responses mention finitely many distinct public keys.", "quantifier": "every schedule, every network behaviour, every positive option value", "why_tests_cant": "deadlocks depend on channel capacities and schedule", "anchors": ["kademlia/iterator.go: processLookupBucket, lookupRequest, iterate, Find"]}
{"id": "C26", "title": "Find looks up the target it is given", "statement": "Find(target) asks peers for nodes close to target, and returns the target when some queried peer knows it.", "quantifier": "every target, every network", "why_tests_cant": "a lookup still returns plausible peers", "anchors": ["kademlia/iterator.go: init (visited target), lookupRequest (Target: id.ID)"]}
{"id": "C27", "title": "Gossip is delivered at most once per node", "statement": "OnGossipReceived is called at most once per distinct message content on a node, whatever messages arrive in whatever order and from whomever, as long as the cache retains its entries; also when several workers handle messages concurrently.", "quantifier": "every arrival history; every interleaving of handler workers", "why_tests_cant": "schedules and histories", "anchors": ["gossip/protocol.go: Handle, Push, hash"]}
{"id": "C28", "title": "Gossip is not echoed", "statement": "Push never sends a message to the node itself, nor to a peer from which that content was received before or to which it was already successfully pushed; distinct (peer, content) pairs never collide in the cache.", "quantifier": "every history, every table, every content", "why_tests_cant": "all histories and contents", "anchors": ["gossip/protocol.go: Push, Handle, hash"]}
{"id": "C29", "title": "Gossip floods the network and dies out", "statement": "With honest nodes that accept the message and reliable links, for every topology and every delivery order: the number of messages sent is bounded (each node pushes at most once to each of its peers), so gossip terminates, and on termination every node reachable from the origin has received the message.", "quantifier": "every finite topology and every delivery order", "why_tests_cant": "topologies x orders", "anchors": ["gossip/protocol.go: Push, Handle"]}
{"id": "C30", "title": "Request nonces", "statement": "Nonces handed to requests are never 0, two outstanding requests on a connection never share a nonce (including across the 2^64 wrap-around), and handing out a nonce never disturbs another outstanding request.", "quantifier": "every history of requests, responses and wrap-arounds", "why_tests_cant": "wrap-around after 2^64 requests is untestable", "anchors": ["map.go: requestMap.nextNonce, findRequest, markRequestFailed"]}
{"id": "C31", "title": "Responses reach the request they answer", "statement": "For every schedule of concurrent requests on one connection with an honest peer that answers at most once per request, in any order: if Request returns data, then it is the data the peer's handler sent for that very request; no response is delivered twice.", "quantifier": "every interleaving of requests, handler completions, deliveries and cancellations", "why_tests_cant": "schedules", "anchors": ["client.go: request, recvLoop", "map.go: requestMap", "msg.go: HandlerContext.Send"]}
{"id": "C32", "title": "A request gets at most one response", "statement": "HandlerContext.Send documents an error when multiple responses are sent to a single request: for every set of handlers registered on the node and every interleaving of their Send calls, at most one response is queued per received request.", "quantifier": "every number of handlers, every interleaving of Send calls", "why_tests_cant": "schedules; single-handler tests never show it", "anchors": ["msg.go: HandlerContext.Send, sent", "node.go: Listen worker loop (handler(ctx) by value)"]}
{"id": "C33", "title": "Request returns when the connection drops", "statement": "Request documents that it blocks until a response, ctx cancellation or the connection being dropped: when the connection drops, every pending Request returns.", "quantifier": "every schedule in which the connection drops while requests are pending", "why_tests_cant": "needs a drop at the exact point; without ctx deadline the test would hang", "anchors": ["node.go: Request", "client.go: request, recvLoop", "map.go: requestMap.close (never called)"]}
{"id": "C34", "title": "Per-connection FIFO, no duplication", "statement": "Under every schedule of concurrent senders and the writer goroutine, the messages written to the connection are, in order and without duplicates, a prefix of the sequence of messages accepted by Send/Request/HandlerContext.Send on it, and nothing accepted is lost while the connection stays up.", "quantifier": "every interleaving of senders, writer, close", "why_tests_cant": "schedules", "anchors": ["client.go: send, writeLoop, close"]}
{"id": "C35", "title": "Send reports a closed connection", "statement": "Send documents an error if the connection is closed: a send on a closed client never reports success for data that is not transmitted.", "quantifier": "every schedule of close and send", "why_tests_cant": "schedules", "anchors": ["client.go: send (always nil), writeLoop (drops writerBuf on close)", "node.go: Send"]}
{"id": "C36", "title": "Inbound connection pool bound and order", "statement": "The number of pooled inbound connections never exceeds WithNodeMaxInboundConnections, the pool never holds two clients for one remote address, Inbound() lists exactly the pooled clients most recently used first, and the evicted one is the least recently used.", "quantifier": "every history of accepts, closes and evictions", "why_tests_cant": "all histories", "anchors": ["map.go: clientMap.get, remove, release, slice", "node.go: Listen, Inbound"]}
{"id": "C37", "title": "Outbound connection pool bound", "statement": "The number of pooled outbound connections never exceeds WithNodeMaxOutboundConnections.", "quantifier": "every configuration and dial history", "why_tests_cant": "tests only ever configure it below the inbound limit and never count", "anchors": ["map.go: clientMap.get (uses n.maxInboundConnections)", "node_options.go: WithNodeMaxOutboundConnections"]}
{"id": "C38", "title": "Dialing with a full pool succeeds by eviction", "statement": "Send/Request/Ping/accept with a full pool close and evict the tail connection and then proceed.", "quantifier": "every schedule starting from a full pool", "why_tests_cant": "a deadlock needs a full pool (128 live connections by default)", "anchors": ["map.go: clientMap.get (waitUntilClosed under lock), remove", "client.go: outbound/inbound deferred remove"]}
{"id": "C39", "title": "Client.Error is the first error", "statement": "Client.Error() returns the first error reported on the client and never changes afterwards, under every interleaving of reporters.", "quantifier": "every interleaving of error reports", "why_tests_cant": "schedules", "anchors": ["client.go: reportError, Error"]}
{"id": "C40", "title": "Client lifecycle signals", "statement": "Under every schedule: the ready, readerDone, writerDone and clientDone signals of a client are each raised at most once (no double-close panic), Close is idempotent, ready is raised before clientDone, and WaitUntilClosed returns only after the reader has stopped.", "quantifier": "every schedule of handshake, loops, Close calls and network failures", "why_tests_cant": "schedules", "anchors": ["client.go: outbound, inbound, handshake, recvLoop, writeLoop, close"]}
{"id": "C41", "title": "WaitUntilClosed waits for all goroutines of the client", "statement": "WaitUntilClosed documents that it returns only when all goroutines associated to the client have ended, the writer goroutine included.", "quantifier": "every schedule", "why_tests_cant": "schedules", "anchors": ["client.go: WaitUntilClosed, outbound, inbound, writeLoop"]}
{"id": "C42", "title": "Received messages are dispatched", "statement": "Every message received that is not the response to a pending request is handed to every registered handler in registration order (up to the first that returns an error), exactly once, by some worker, and never before the previous message of the same connection was queued.", "quantifier": "every schedule, every number of workers and handlers", "why_tests_cant": "schedules", "anchors": ["client.go: recvLoop", "node.go: Listen worker loop"]}
{"id": "C43", "title": "A failing handler only costs its own connection", "statement": "Handler documents that returning an error closes the connection: the node keeps handling messages of other connections afterwards, however many handler errors have occurred.", "quantifier": "every history of handler errors", "why_tests_cant": "needs as many errors as workers", "anchors": ["node.go: Listen worker loop (return on handler error)", "mod.go: Handler"]}
{"id": "C44", "title": "Close stops all live connections", "statement": "Node.Close documents that it stops all live inbound and outbound connections before returning.", "quantifier": "every schedule of Close, connections and messages", "why_tests_cant": "schedules", "anchors": ["node.go: Close, Listen deferred shutdown (only inbound.release; listenerDone buffered)"]}
{"id": "C45", "title": "Close never crashes the process", "statement": "Under every schedule, closing a node never leads to a panic in one of its goroutines.", "quantifier": "every schedule of Close and incoming messages", "why_tests_cant": "schedules", "anchors": ["node.go: Listen deferred shutdown (close(n.work))", "client.go: recvLoop (c.node.work <- ...)"]}
{"id": "C46", "title": "Close returns", "statement": "Close may be called concurrently; it returns for every node that Listen was called on, under every schedule.", "quantifier": "every schedule of Listen and Close", "why_tests_cant": "schedules", "anchors": ["node.go: Close (CAS on listening), Listen (listening stored in goroutine)"]}
{"id": "C47", "title": "Only authenticated peers' data reaches handlers", "statement": "No handler is invoked with data from a connection whose handshake failed, on either side.", "quantifier": "every schedule and every peer behaviour", "why_tests_cant": "needs a hostile peer", "anchors": ["client.go: inbound (checks Error), outbound (does not), recvLoop"]}
{"id": "C48", "title": "Handshake agreement", "statement": "When two honest nodes handshake over a faithful connection, both complete without error, derive the same session key, and each learns the other's exact public key, host, port and address.", "quantifier": "every pair of key pairs, ephemeral keys and 16-byte-host IDs", "why_tests_cant": "all keys", "anchors": ["client.go: handshake", "ecdh.go: ECDH"]}
{"id": "C49", "title": "Handshake authentication", "statement": "If a node completes a handshake with peer ID P then the holder of P's private key signed exactly P's encoded ID together with this session's key; a failed check at any step leaves the client without ID and reports an error; a network attacker without the private key of an honest node cannot make a node complete a handshake under that honest node's identity unless that honest node takes part in a session with the same key.", "quantifier": "every attacker message sequence", "why_tests_cant": "attackers are not enumerable", "anchors": ["client.go: handshake", "keys.go: Sign, Verify"]}
{"id": "C50", "title": "A completed handshake proves a live key holder other than oneself", "statement": "Completing a handshake implies the remote end holds the private key of the ID it presents.", "quantifier": "every attacker behaviour including reflection", "why_tests_cant": "attack needs protocol-level reasoning", "anchors": ["client.go: handshake"]}
{"id": "C51", "title": "Dial attempts and failure notification", "statement": "Ping/Send/Request dial a peer at most maxDialAttempts times; OnPingFailed is called exactly once per call that fails to obtain a connection and never by one that succeeds; a cancelled context stops further attempts.", "quantifier": "every sequence of dial outcomes and every attempt limit", "why_tests_cant": "outcome sequences x limits", "anchors": ["node.go: dialIfNotExists", "node_options.go: WithNodeMaxDialAttempts"]}
{"id": "C52", "title": "Cancelling the context unblocks dialing", "statement": "Ping/Send/Request return when ctx is cancelled while connecting.", "quantifier": "every schedule of dial completion and cancellation", "why_tests_cant": "race window between dial completion and c.conn assignment", "anchors": ["node.go: dialIfNotExists", "client.go: close (conn nil), outbound"]}
{"id": "C53", "title": "Node options", "statement": "For every list of options, the node's configuration is the last value given for each setting with zero replaced by the documented fallback (dial attempts 1, connections 128, workers 1), defaults otherwise; in particular dial attempts, connection limits and workers are always at least 1; settings are independent of the order of unrelated options.", "quantifier": "every option list", "why_tests_cant": "all option lists", "anchors": ["node.go: NewNode", "node_options.go"]}
{"id": "C54", "title": "Default idle timeout", "statement": "Without WithNodeIdleTimeout, idle connections time out after the documented default (3 seconds per the option's documentation, 10 per the README).", "quantifier": "every option list without WithNodeIdleTimeout", "why_tests_cant": "absence of a timeout needs waiting", "anchors": ["node.go: NewNode", "node_options.go: WithNodeIdleTimeout", "README.md"]}
{"id": "C55", "title": "Bind and Handle freeze once listening", "statement": "Protocols and handlers registered before listening are kept in order; once the node is listening Bind and Handle change nothing.", "quantifier": "every history of Bind/Handle/Listen calls", "why_tests_cant": "all histories", "anchors": ["node.go: Bind, Handle, Listen"]}
{"id": "C56", "title": "Ed25519 to Curve25519 public key conversion", "statement": "For every 32-byte key the conversion never panics and returns 32 bytes; the result depends only on the y-coordinate (not the sign bit); it is the little-endian encoding of u with u*(1-y) = 1+y mod 2^255-19 whenever 1-y is invertible, and of 0 otherwise; distinct canonical y (other than 1) give distinct results.", "quantifier": "every 32-byte key", "why_tests_cant": "2^256 keys", "anchors": ["ecdh.go: ed25519PublicKeyToCurve25519"]}
{"id": "C57", "title": "Public address announced after Listen", "statement": "After a successful Listen the node's ID carries the node's own public key, and the configured public address if one was set, else the bound host and port; a failed Listen closes the listener.", "quantifier": "every configuration and every outcome of bind, resolution and protocol Bind callbacks", "why_tests_cant": "all outcomes", "anchors": ["node.go: Listen", "addr.go: ResolveAddress, resolveIP, normalizeIP"]}
{"id": "C58", "title": "Any configured loopback public address is usable", "statement": "WithNodeAddress with an address of the form loopback:port or unspecified:port lets Listen succeed.", "quantifier": "every port and every loopback or unspecified address", "why_tests_cant": "all addresses", "anchors": ["addr.go: ResolveAddress, resolveIP", "node.go: Listen (host == nil error)"]}
{"id": "C59", "title": "Textual forms", "statement": "PublicKey.String/Signature.String/PrivateKey.String are injective lower-case hex; MarshalJSON is that text in double quotes; ID.String is the JSON object built from the key's hex and the address, and determines both.", "quantifier": "every key and ID", "why_tests_cant": "all keys", "anchors": ["keys.go: String, MarshalJSON", "id.go: ID.String"]}
{"id": "C60", "title": "Kademlia request handling", "statement": "A node answers every well-formed Ping request with a Pong and every FindNodeRequest with at most 16 entries of its table sorted by distance, never containing the target; undecodable or foreign messages are ignored without closing the connection; a ping or find-node message not sent as a request is an error.", "quantifier": "every message, every table", "why_tests_cant": "all messages and tables", "anchors": ["kademlia/protocol.go: Handle"]}
{"id": "C61", "title": "Concurrent Bind calls are all registered", "statement": "Bind documents that it may be called concurrently: after any number of overlapping Bind calls on a node that is not listening have returned, the protocols of every call are registered.", "quantifier": "every set of calls and every interleaving", "why_tests_cant": "needs a particular interleaving of unsynchronised reads and writes", "anchors": ["node.go: Bind, Handle"]}
{"id": "C62", "title": "Bind and Handle do nothing once Listen has returned", "statement": "Bind and Handle document that they silently do nothing when the node is already listening: after Listen returned without error, calls to them change nothing.", "quantifier": "every configuration and every call after a successful Listen", "why_tests_cant": "depends on when the listener goroutine is scheduled", "anchors": ["node.go: Listen, Bind, Handle"]}
{"id": "C63", "title": "Ack never crashes the process", "statement": "No interleaving of Ack calls and failed dials makes Ack panic.", "quantifier": "every history and every interleaving of Acks and failed dials, with any ping outcomes", "why_tests_cant": "the window between two table operations must coincide with sixteen removals", "anchors": ["kademlia/protocol.go: Ack, OnPingFailed", "kademlia/table.go: Last"]}
{"id": "C64", "title": "No replay on an encrypted connection", "statement": "After the handshake, the messages a node accepts on a connection are a prefix of the messages its peer sent, even when an attacker on the network repeats, reorders or drops recorded frames.", "quantifier": "all message sequences, nonces, ciphers meeting the AEAD contract, and all recombinations of recorded frames", "why_tests_cant": "requires reasoning about every recombination an attacker can make, and about every cipher key", "anchors": ["client.go: read, writeLoop", "aead.go: decryptAEAD"]}
{"id": "C65", "title": "Gossip dies out for every content size", "statement": "Gossip of any content a node accepts (up to the receive limit, 4 MB by default) terminates when the cache has room.", "quantifier": "all topologies, origins, delivery orders and contents within the receive limit", "why_tests_cant": "the failing sizes are those whose cache key reaches 64 KB, and non-termination cannot be observed by a finite run", "anchors": ["gossip/protocol.go: Push, Handle, hash"]}
{"id": "C66", "title": "Gossip handles exactly gossip messages", "statement": "A content encoded by Push is recovered unchanged by the receiver's Handle; requests, undecodable payloads and messages of other registered types are ignored without error or panic.", "quantifier": "all registration histories, codecs, payloads and contents", "why_tests_cant": "quantifies over all payloads and all registration histories", "anchors": ["gossip/protocol.go: Bind, Handle", "codec.go: encode, decode"]}
{"id": "C67", "title": "An idle timeout does not break a live connection", "statement": "While a connection's reader runs, the network does not fail and nobody closes the client, every message accepted by Send can still be transmitted, whatever idle timeout is configured.", "quantifier": "every schedule of ticks, senders, writer and reader; every idle timeout", "why_tests_cant": "quantifies over the timing of idle periods relative to sends", "anchors": ["client.go: writeLoop (deadline set before waiting), recvLoop"]}
{"id": "C68", "title": "Close closes the connection", "statement": "When Close has been called on a client and its goroutine has ended, the network connection it held is closed.", "quantifier": "every schedule of Close, dial/accept and the loops", "why_tests_cant": "a race of Close with the assignment of the connection", "anchors": ["client.go: close, outbound, inbound"]}
{"id": "C69", "title": "Both parties derive the same key", "statement": "For every two key pairs of crypto/ed25519, the shared key that ECDH derives from one party's private and the other's public key is the same on both sides; the scalar used is the first half of SHA-512 of the private key's seed.", "quantifier": "all seeds; any SHA-512, X25519 and key generation satisfying the stated group law", "why_tests_cant": "2^512 pairs of keys", "anchors": ["ecdh.go: ed25519PrivateKeyToCurve25519, ECDH"]}
{"id": "C70", "title": "A call connects to a usable connection", "statement": "When Ping, Send or Request obtains a connection, that connection has finished its handshake without error and has not been closed.", "quantifier": "every schedule of calls, cancellations, dial outcomes and closing of connections", "why_tests_cant": "the window is between a connection's closing and the pool noticing it", "anchors": ["node.go: dialIfNotExists (select on ready, readerDone, writerDone)", "client.go: close, handshake, readLoop"]}
{"id": "C71", "title": "At most one live connection per address", "statement": "At any time each of a node's two pools holds at most one connection to an address that is being dialled, in handshake or in use; a call for an address that has such a connection uses it rather than dialling.", "quantifier": "every schedule of any number of concurrent calls and connections", "why_tests_cant": "needs exhaustive interleavings of concurrent calls with failing connections", "anchors": ["map.go: clientMap.get, remove", "client.go: outbound/inbound deferred remove", "node.go: dialIfNotExists"]}
{"id": "C72", "title": "Connection callbacks are paired", "statement": "OnPeerConnected is called at most once per connection, after its handshake; OnPeerDisconnected is called exactly for the connections for which OnPeerConnected was called, once, after it.", "quantifier": "every schedule, both sides, every network behaviour", "why_tests_cant": "needs failing handshakes at chosen moments on both sides", "anchors": ["mod.go: Protocol.OnPeerConnected, OnPeerDisconnected", "client.go: outbound, inbound, handshake"]}
{"id": "C73", "title": "Every received message is announced", "statement": "OnMessageRecv is called exactly once for every message or response received from a peer.", "quantifier": "every schedule and every sequence of frames", "why_tests_cant": "responses and messages take different branches of the reader; needs all interleavings", "anchors": ["mod.go: Protocol.OnMessageRecv", "client.go: readLoop"]}
{"id": "C74", "title": "Sent bytes are announced", "statement": "Whenever bytes of messages have been sent to a peer, OnMessageSent is called for them once the writer is idle again; it is called only when every message taken so far has been handed to the connection, and not more often than messages have been sent.", "quantifier": "every schedule, every buffer spill, every failure of a write", "why_tests_cant": "depends on where the buffered writer flushes by itself and which write fails", "anchors": ["mod.go: Protocol.OnMessageSent", "client.go: writeLoop"]}
{"id": "C75", "title": "Callbacks of a connection are bracketed", "statement": "All of a connection's OnMessageSent/OnMessageRecv calls come after its OnPeerConnected and before its OnPeerDisconnected.", "quantifier": "every schedule, both sides", "why_tests_cant": "reader and writer are separate goroutines; needs exhaustive interleavings", "anchors": ["mod.go: Protocol", "client.go: outbound, inbound, writeLoop, readLoop"]}
{"id": "C76", "title": "Messages from dialled peers reach the handlers", "statement": "A node's handlers run for every message that arrives on an outbound or inbound connection, whether or not and whenever the node calls Listen.", "quantifier": "every schedule of dials, Listen, incoming messages and Close", "why_tests_cant": "a permanently blocked goroutine is invisible to a test that does not wait for that message", "anchors": ["node.go: Handle, Listen (n.work, workers)", "client.go: readLoop (node.work <- ...)"]}
{"id": "C77", "title": "Every accepted connection is served", "statement": "Each connection that a listening node accepts gets a client of its own that reads, writes and closes it.", "quantifier": "every schedule, pool size and sequence of remote addresses", "why_tests_cant": "needs a second connection from an address that the pool still holds", "anchors": ["node.go: Listen (accept loop)", "map.go: clientMap.get"]}
{"id": "C78", "title": "The exchange started by a request ends", "statement": "If no further request is made, the messages that requests and their responses cause on a connection come to an end, whatever handlers answer requests on the two sides.", "quantifier": "every number of answering handlers on both sides, every schedule and number of requests", "why_tests_cant": "an exchange that never ends cannot be told from a slow one by a finite test", "anchors": ["client.go: recvLoop (findRequest), request", "msg.go: HandlerContext.Send", "node.go: Listen (workers running all handlers)"]}
{"id": "C79", "title": "Callbacks may use the node", "statement": "A Ping, Send or Request that a protocol makes from its OnPeerConnected or OnPeerDisconnected callback returns (with a result or an error), for whatever address, at the latest after its context has expired, as long as dials, handshakes and other peers make progress.", "quantifier": "every pool size, every schedule of any number of calls, clients, callbacks and cancellations", "why_tests_cant": "a call that never returns looks like a slow one; needs the callback, the address or the pool to be in a particular relation", "anchors": ["client.go: handshake (OnPeerConnected, defer close(ready))", "client.go: outbound, inbound (OnPeerDisconnected before the deferred remove and close(clientDone))", "node.go: dialIfNotExists", "map.go: clientMap.get"]}
{"id": "C80", "title": "Gossip passes on what the application accepts, and only that", "statement": "A content that OnGossipReceived rejects with an error is not sent to any peer unless the application pushes it itself; a content that it accepts is offered to every peer in the routing table, each of which is either sent it or skipped.", "quantifier": "every history of arrivals, pushes, cache evictions and interleavings of handlers and pushes", "why_tests_cant": "quantifies over all schedules and over the absence of an effect", "anchors": ["gossip/protocol.go: Handle, Push"]}
{"id": "C81", "title": "Typed messages arrive as sent, end to end", "statement": "Two nodes that registered the same message types in the same order and complete the handshake: every registered value that one sends with SendMessage, RequestMessage or a handler's SendMessage, and that fits the other's receive limit, reaches the other's handlers exactly once, in the order sent, as a request iff it was one, and DecodeMessage gives what the type's own decoder gives on the bytes its Marshal produced. Nothing else arrives.", "quantifier": "every registration history, every list of values, every batching by the writer, every chunking by the network, either side dialling", "why_tests_cant": "the composition of handshake, codec, buffer reuse, encryption, framing and reading for all inputs at once", "anchors": ["node.go: SendMessage, RequestMessage", "client.go: handshake, writeLoop, recvLoop", "codec.go", "msg.go: DecodeMessage, SendMessage"]}
{"id": "C82", "title": "Kademlia's remote calls report what the peer did", "statement": "(*kademlia.Protocol).Ping to a peer running Kademlia with the same registrations succeeds, and against any peer it succeeds exactly when the response carries the pong's opcode. A lookup's FIND_NODE at such a peer yields exactly the at most 16 entries the peer answers with, nearest first; no answer of any peer crashes it. A message of an unregistered type is not sent.", "quantifier": "every registration history containing Kademlia's messages, every routing table history, every response bytes", "why_tests_cant": "all tables, all registration orders and all hostile responses at once", "anchors": ["kademlia/protocol.go: Ping, Handle", "kademlia/iterator.go: lookupRequest", "node.go: RequestMessage"]}
{"id": "C83", "title": "A node's log does not help to read its traffic", "statement": "Somebody who has a node's log and a recording of the bytes it received, but no key, cannot read the messages. False: once a handshake succeeds every entry that the connection logs carries the session key in hexadecimal, and with it the whole recording can be read. What holds: the log depends on nothing else that is secret (long-term key, messages), a failed handshake logs no key, and a logger that drops debug entries gets no entry from a connection that ends quietly.", "quantifier": "every cipher suite and signature scheme, every session in either direction that completes its handshake, every stream of received bytes, every logger configuration", "why_tests_cant": "secrecy is a property of what can be computed from an output, not of the output; no test looks at log fields", "anchors": ["client.go:499-506", "client.go:523-533", "client.go:238", "node_options.go:82-90"]}
{"id": "C84", "title": "A buffer passed to Send may be reused once Send has returned", "statement": "What the peer is sent for a Send, Request or HandlerContext.Send is the bytes that the slice held when it was passed, whatever the caller does with that slice after the call has returned (for Request: while it waits). The code keeps the caller's slice until the writer gets to it, so this is false for byte slices; it holds for typed messages (SendMessage, RequestMessage, SendMessage on a handler context), whose encoding is always copied into an array of its own.", "quantifier": "every sequence of the application making, reslicing and overwriting slices, sending them with any nonce as bytes or as the result of Marshal, and the writer taking messages; every growth policy of append", "why_tests_cant": "whether an overwritten buffer is sent depends on when the writer runs; a test that sends and then reuses its buffer usually passes", "anchors": ["client.go:340-347", "client.go:600-601", "msg.go:16-22", "codec.go:73-76", "node.go:276-327", "node.go:343-355", "msg.go:71-77"]}
{"id": "C85", "title": "The data that a handler is given stays as it arrived", "statement": "Every message handed to a handler or to a waiting request has its own copy of the data: messages that arrive later never change it, nothing that the holder of one message writes into its data changes another message's data or what is received afterwards, and until its own holder writes into it the data is what arrived.", "quantifier": "every receive limit, cipher suite meeting the AEAD contract (or none), byte stream with any split into reads and any end, growth policy of append, and interleaving of the receive loop with holders writing any bytes anywhere in the capacity of their slices", "why_tests_cant": "the receive buffer is reused for every message; a missing copy shows only when a message arrives while an earlier one is still held, with data that differs", "anchors": ["client.go:94", "client.go:282-313", "client.go:520-556", "client.go:539", "aead.go:41-50", "msg.go:24-33"]}
{"id": "C86", "title": "A peer that has been dialled can be used by a node running Kademlia", "statement": "On a node with Kademlia bound, the OnPeerConnected callback returns for every connection the node dials, so the connection becomes ready and calls to the peer's address get it. Kademlia's callback acknowledges the peer, and when the peer's bucket is full it pings the entry at the bucket's tail. If that entry has the address just dialled (a peer came back at its address under another key), the ping waits for the very connection whose callback is pinging: the callback never returns, whatever happens and also after the ping's timeout, the connection never becomes ready, and no call to that address ever returns. With room in the bucket the callback needs nobody, and it can end when the entry to be pinged is at another address that is connected, or can be. When the entry to be pinged cannot be dialled, the callback goes on by removing it from the table, never as if it had answered.", "quantifier": "every pool size, number of dial attempts, schedule of callers, clients, callbacks and other users of the table, and every identity presented by peers", "why_tests_cant": "it takes a full bucket (sixteen peers with a common key prefix) whose least recently seen member restarts at the same address with a new key, the default for nodes that do not store theirs", "anchors": ["kademlia/protocol.go:82-152", "kademlia/protocol.go:187-191", "client.go:508-514", "node.go:390-441", "map.go:31-58"]}
{"id": "C87", "title": "A node's log does not let its reader impersonate the node", "statement": "Nobody can learn a node's private key from what the node logs. In fact Listen logs the private key in hexadecimal at Info level, so whoever reads the log of a node that has begun to listen has its key, and with it completes the handshake with every honest peer, who is then told the node's public key. A logger that keeps only warnings and errors gets nothing from Listen, and a Listen that fails logs nothing. The rest of the entry is true: the listener's address, and the address and public key that peers are given.", "quantifier": "every list of options, generated key, environment of Listen, way of reading logs; for the impersonation every honest peer, address and split of the stream into reads, and cryptography meeting its contracts", "why_tests_cant": "tests run with a logger that drops everything or print to the terminal; nothing fails when a secret is printed", "anchors": ["node.go:211-216", "keys.go:63-79", "keys.go:102-104", "client.go:395-480"]}
{"id": "C88", "title": "A node can connect out as soon as it is made", "statement": "A node returned by NewNode can dial honest peers, who learn its public key. In fact the node's identity carries the node's key only when a bind host and a bind port other than 0 are given (and no identity), when an identity with the node's own key is given, or once Listen has succeeded; otherwise it is all zero (or somebody else's), and every honest peer turns the node away, because the signature does not verify under the key that the identity carries. Whenever the identity carries the node's key, with a 16-byte host, the peer accepts and learns exactly that identity.", "quantifier": "every list of options, generated key, honest peer, split of the two streams into reads and data following the handshake, and cryptography meeting its contracts", "why_tests_cant": "the examples and tests all listen before they dial; the failure appears at the other node, as a dropped connection", "anchors": ["node.go:72-106", "node.go:136-165", "client.go:453-480", "node_options.go:75-97"]}
{"id": "C89", "title": "Chat messages are shown as valid text", "statement": "What the chat program takes out of a received chat message is the received bytes without those that belong to no UTF-8 character: always valid text, with every complete character kept, in order, and nothing added. Text that is valid when sent is shown at the receiver unchanged, after the sender's name.", "quantifier": "every byte string, every sequence of Unicode scalar values, every codec with the chat program's registrations, every sender", "why_tests_cant": "the chat program has no tests; overlong forms, surrogates and cut characters each need their own input", "anchors": ["cmd/chat/main.go:24-34", "cmd/chat/main.go:136-158", "codec.go:59-102"]}
{"id": "C90", "title": "A typed line arrives as one chat message, shown as typed", "statement": "Each line typed that does not begin with a slash is shown by every peer that it is sent to, once, in order and as typed (without the CR of a CR LF); empty lines are ignored. In fact a line of more than 4096 bytes is passed on in pieces: peers see several messages, a piece that begins with a slash is executed as a command instead of being sent, and a character across the cut is lost. The pieces always make up what was typed, each of at most 4096 bytes.", "quantifier": "every standard input, routing table and position of the peer among those sent to; for the positive part every input whose lines are valid text of at most 4095 bytes", "why_tests_cant": "needs inputs longer than the reader's buffer, with particular bytes at the boundary; the program has no tests", "anchors": ["cmd/chat/main.go:113-133", "cmd/chat/main.go:212-242"]}
{"id": "C91", "title": "A chat line reaches every known peer once", "statement": "Every line that is not a command is sent once to the address of every peer in the routing table. In fact it is sent to the sixteen closest entries: a peer with sixteen others closer is sent nothing, and a peer that is known under two keys at one address is sent every line twice. With at most sixteen other peers at distinct addresses the claim holds; commands are sent to nobody.", "quantifier": "every history of routing table operations and every standard input", "why_tests_cant": "needs more than sixteen peers, or a peer that came back with a new key", "anchors": ["cmd/chat/main.go:212-242", "kademlia/table.go:154-156"]}
{"id": "C92", "title": "Every line on the screen names its sender", "statement": "Every line that a received message puts on the screen begins with the address and the key prefix of the peer that sent it. In fact a message may contain line feeds, and with one any peer can show, after its own line, any line of any other peer exactly as that peer's own message would show it. Only messages that are not requests and decode as chat messages with text are shown; the first line is always the sender's; without a line feed in the received bytes it is the only one. The name shows only the first four bytes of the key.", "quantifier": "every message, sender and victim, every pair of texts", "why_tests_cant": "the program has no tests; a forged line is what a correct run of another peer prints", "anchors": ["cmd/chat/main.go:42-44", "cmd/chat/main.go:136-158", "cmd/chat/main.go:24-34"]}
{"id": "C93", "title": "The idle timeout ends idle connections only", "statement": "With WithNodeIdleTimeout(d) a connection is timed out only when nothing has been read from or written to it for d. In fact only messages received completely count: a connection on which the node sends at every moment is timed out d after its last received message, and so is one on which a message arrives slowly, byte after byte, for longer than d. A timeout does mean that no message had become complete for d; a connection on which nothing arrives does time out; a message that arrives completely before the deadline can be read, and moves it; and with d = 0 nothing times out.", "quantifier": "every timeout, every sequence of message sizes, every schedule of arriving bytes, writes, reads and time", "why_tests_cant": "no test sets an idle timeout and then waits; which of the two directions is quiet, and how the bytes of a message are spread over time, is a property of schedules", "anchors": ["client.go:281-313", "client.go:516-556", "client.go:577-586", "node_options.go:73-80"]}
{"id": "C94", "title": "Concurrent typed calls each get their own answer, end to end", "statement": "When goroutines of a node call RequestMessage concurrently over one connection to a node that registered the same types in the same order, each call that returns a value returns the one that the other node's handler passed to SendMessage for that very call, decoded by the decoder registered for its type; the handler had been given the value of the call, decoded likewise. A call gets one answer at most, every answer that arrives is given to its call and to nobody else, whatever the order in which handlers answer and whichever calls have been abandoned. This holds over the bytes: the two encrypted streams, batched by the writers and cut by the network in any way, deliver at each node exactly the messages that the other has queued, in order.", "quantifier": "every schedule of calls, one-way messages, handler answers and reads, every list of registered types, all values within the receive limit, any number of calls (also beyond 2^64), every batching and split of the streams, and cryptography meeting its contracts", "why_tests_cant": "tests make a few calls with one outstanding at a time, and answer in order", "anchors": ["node.go:276-305", "client.go:340-380", "client.go:516-556", "msg.go:80-108", "map.go:109-148", "codec.go:56-102"]}
{"id": "C95", "title": "Addresses name endpoints", "statement": "The addresses of two identities made with NewID are equal exactly if the ports are equal and the hosts are equal as IP addresses (whether held in 4 bytes or in 16), or both hosts are absent, loopback or unspecified. The address of an identity with any other host, split and parsed as Listen does, gives back that host and port; the address of one with such a host names no host at all, so identities on 127.0.0.1, [::1] and 0.0.0.0 with the same port cannot be told apart by address.", "quantifier": "all hosts, of any length, IPv4 and IPv6 with every pattern of zero groups, all ports", "why_tests_cant": "tests use a few loopback addresses; the abbreviation of zero groups has thousands of shapes", "anchors": ["id.go:29-33", "addr.go:21-38", "node.go:136-165"]}
{"id": "C96", "title": "Handlers may make requests", "statement": "Nodes whose handlers call Request on other nodes, wait for the answer and then answer themselves: every request that has been sent can still be answered, whatever the order in which requests were sent, read, queued and taken by workers.", "quantifier": "any number of nodes, workers, outside programs and requests, any tree of requests that a request leads to, every schedule, contexts that do not expire", "why_tests_cant": "tests' handlers answer at once; the deadlock needs every worker of both nodes to be waiting at once, and a node has by default one worker per CPU", "anchors": ["node.go:178-197", "node.go:342-358", "client.go:349-380", "client.go:541-553", "msg.go:72-78"]}
{"id": "C97", "title": "A node that gossips keeps handling messages", "statement": "A node that runs the gossip protocol keeps taking messages, of any kind, to its handlers: those that wait for a worker are taken sooner or later, whatever peers are in its routing table and whatever the application says to the messages.", "quantifier": "any number of workers, any routing tables and changes to them, any messages, every schedule of workers, Push's goroutines and cache evictions", "why_tests_cant": "tests gossip between live nodes that accept everything; it takes a peer that accepts connections without answering the handshake, and as many messages as workers", "anchors": ["gossip/protocol.go:61-88", "gossip/protocol.go:91-125", "node.go:178-197", "node.go:390-412", "client.go:548"]}
{"id": "C98", "title": "Discover reaches every node that can be reached", "statement": "When every node it asks answers, Discover asks every node that can be reached from the caller: those in its own routing table, those in the tables of these, and so on; it asks nobody else, and returns the closest of them.", "quantifier": "any network of nodes and routing tables, any numbers of lookups and parallel requests, every schedule of Find's goroutines", "why_tests_cant": "tests discover in networks smaller than one bucket, where every table is told in full; it takes a node that knows more than sixteen others", "anchors": ["kademlia/protocol.go:46-56", "kademlia/iterator.go:55-153", "kademlia/iterator.go:165", "kademlia/table.go:154-196", "kademlia/protocol.go:228-232"]}
{"id": "C99", "title": "Options of Find, Discover and the protocols", "statement": "With any options, Find and Discover do not crash the process, ask every peer of the routing table they start from, and return at most the configured number of peers. Each setting is the last one given, or its documented default: 16 results, 3 lookups, 8 requests per lookup, 3 seconds. The Kademlia and gossip constructors treat their options the same way.", "quantifier": "any sequence of options with any integers, any routing table and target, every schedule of Find's goroutines and every answer of the peers", "why_tests_cant": "tests use the defaults; zero and negative numbers, and repeated options, are not tried", "anchors": ["kademlia/iterator.go:33-121", "kademlia/iterator_options.go:10-50", "kademlia/protocol.go:17-56", "kademlia/protocol_options.go:9-33", "gossip/protocol.go:24-35", "gossip/events.go:13-21"]}
{"id": "C100", "title": "A node with protocols may be used at any time", "statement": "A node given Kademlia, gossip and application protocols crashes in no call and for no peer: whether it dials before it listens, listens again after Listen failed or after Close, or gossips over a routing table. This is for protocols that have no message type in common, whose Bind succeeds, and for gossip over a Kademlia instance that was given to the node too.", "quantifier": "any sequence of Bind, RegisterMessage, Listen, Close, connections, failed dials, gossip messages and uses of the protocols; any number of protocols and instances", "why_tests_cant": "tests call Bind, then Listen, then dial, once each; other orders are not tried", "anchors": ["node.go:108-218", "node.go:415-455", "client.go:508-514", "codec.go:33-57", "kademlia/protocol.go:48-84", "kademlia/protocol.go:156-213", "gossip/protocol.go:24-64", "gossip/protocol.go:91-125"]}
{"id": "C101", "title": "What peers can make a node keep in memory is bounded", "statement": "The bytes of messages that a node keeps for its peers, received and not yet handled or waiting to be sent, are bounded by its configuration (receive limit, workers) and the number of connections, if the handlers' answers to one message are bounded.", "quantifier": "any number of workers and connections, any sizes, every schedule of readers, workers, writers and of peers that read or do not read", "why_tests_cant": "tests have peers that read what they are sent; it takes a peer that sends and does not read", "anchors": ["client.go:281-312", "client.go:340-347", "client.go:516-559", "client.go:587-634", "node.go:178-195", "msg.go:71-77"]}
{"id": "C102", "title": "An Iterator can be used for several Finds", "statement": "Find may be called any number of times, at any time, on one Iterator: the process does not crash, and each call asks, hears and finds what a Find on an Iterator of its own could.", "quantifier": "any number of calls and of parallel lookups and requests, any tables and answers, every schedule of the goroutines of all calls", "why_tests_cant": "the calls share the fields visited, results and buckets; which of them writes to or closes which channel depends on the schedule, and tests call Find once per Iterator", "anchors": ["kademlia/iterator.go:13-29", "kademlia/iterator.go:55-106", "kademlia/iterator.go:108-180"]}
{"id": "C103", "title": "Accessors may be called concurrently", "statement": "Client.ID, Client.Logger, Node.ID and Node.Addr, called at any time, give the value from before a change (a handshake, SetLogger, Listen) or the value after it.", "quantifier": "all IDs, addresses and loggers, any number of readers, every interleaving of the machine words read and written", "why_tests_cant": "a mixed value is seen only if the reads of one call fall between the writes of another goroutine, a matter of nanoseconds", "anchors": ["client.go:100-128", "client.go:382-384", "client.go:495", "node.go:126-156", "node.go:480-513", "id.go:15-27"]}
{"id": "C104", "title": "A call whose context has ended leaves the connections of others alone", "statement": "While nothing is wrong with a connection (no read, write, handshake or handler fails, nobody closes it, it is not evicted to make room), it stays open, whatever calls to Ping, SendMessage and RequestMessage are made and whenever their contexts end.", "quantifier": "all schedules of any number of calls to any addresses, all times of cancellation, all pool sizes and numbers of attempts", "why_tests_cant": "a call on a ready connection with an ended context picks one of two ready branches of a select at random; the loss shows only in another goroutine's use of the connection", "anchors": ["node.go:390-441", "client.go:187-198", "map.go:31-57"]}
{"id": "C105", "title": "A peer that answers stays in the routing table", "statement": "Once a peer is in the routing table and nothing under way is removing it, it stays as long as the pings that the node sends to its address are answered, however many other peers arrive and whatever becomes of them.", "quantifier": "all tables, peers, numbers of newcomers and interleavings of the calls of Ack and OnPingFailed", "why_tests_cant": "the number of newcomers and the interleavings of their pings with other peers' leaving and returning are unbounded", "anchors": ["kademlia/protocol.go:82-152", "kademlia/protocol.go:193-203", "kademlia/table.go:41-46", "kademlia/table.go:67-151"]}
{"id": "C106", "title": "Secrets that leak later or elsewhere do not open a connection", "statement": "What is said on a connection with another peer stays secret, and only the two ends can say anything on it, though the long-term keys of both nodes become known after the handshake, though the node's own long-term key is known before it, and though the ephemeral secrets and session keys of all other connections are known.", "quantifier": "all runs of any number of sessions of any number of nodes against a network attacker, all times and sets of leaks", "why_tests_cant": "the attacker may do anything that its knowledge allows, in any order, with unboundedly many sessions", "anchors": ["client.go:380-495", "client.go:501", "keys.go:24-28"]}
{"id": "C107", "title": "An eavesdropper learns only the lengths of the messages", "statement": "Whatever is said in both directions of an encrypted connection, the bytes on the wire are compatible with any other messages of the same lengths: without the key nobody can tell them apart.", "quantifier": "all messages in both directions, all key streams and tags of the cipher, all outputs of the random generator", "why_tests_cant": "a statement about all pairs of message sequences and all key streams; a run shows one ciphertext", "anchors": ["aead.go:28-39", "client.go:322-333", "client.go:438-450", "client.go:599-632"]}
{"id": "C108", "title": "A call returns what the peer answered to that very request", "statement": "Over an encrypted connection whose bytes somebody else carries, a call of Request or RequestMessage that returns data returns what a handler of the peer answered to that very request.", "quantifier": "all interleavings of calls, sends, handlers' answers and cancellations, all orders in which the network hands over, withholds or repeats recorded frames of either end", "why_tests_cant": "a test's network does not hand frames back to the end that sealed them, and tries few orders", "anchors": ["client.go:349-378", "client.go:517-558", "client.go:438-450", "aead.go:28-50", "msg.go:72-78", "map.go:109-148"]}
{"id": "C109", "title": "The documented messaging examples print what they say", "statement": "Example_messaging, Example_codecMessaging, Example_rPC and Example_codecRPC, run under any scheduling of their goroutines, print exactly the lines given in their Output comments and then return.", "quantifier": "all interleavings of main and the handlers; the model allows any list of messages in place of the two", "why_tests_cant": "go test runs each example once, under one schedule; the bad one needs a handler to finish before main's next statement", "anchors": ["example_messaging_test.go:12-82", "example_codec_messaging_test.go:30-131", "example_rpc_test.go:12-66", "example_codec_rpc_test.go:11-76"]}
{"id": "C110", "title": "Nodes that have pinged each other discover each other", "statement": "In a network of at most sixteen nodes running Kademlia, once nodes are connected by calls of Ping that have returned, in whichever direction they were made, Discover at one of them returns all the others (Example_peerDiscovery: 2 peers each).", "quantifier": "all networks of up to sixteen nodes with different keys, all orders of dialling, ends of handshakes, pings and messages, all schedules of the lookup, tables that grow during it", "why_tests_cant": "the example runs three nodes under one schedule; the bad one needs the accepting end to finish its handshake after the dialler's Ping has returned", "anchors": ["example_discovery_test.go:12-72", "node.go:369-413", "client.go:380-515", "kademlia/protocol.go:61-72", "kademlia/protocol.go:82-153", "kademlia/protocol.go:188-232"]}
{"id": "C111", "title": "Inbound and Outbound list the connections", "statement": "A call of Inbound or Outbound returns; it then lists every client of that direction that has not been closed, each once, and no client on which WaitUntilClosed has returned.", "quantifier": "all numbers of concurrent calls and accepted connections, all addresses, limits, cancellations, errors and interleavings", "why_tests_cant": "the tests look at the lists of a few connections at rest; an eviction, or a client that is just ending, has to coincide with the call", "anchors": ["node.go:476-488", "map.go:31-98", "client.go:203-279"]}
{"id": "C112", "title": "A handler that does not return holds up only its own connection", "statement": "While some calls of handlers do not return, every message read from any other connection can still be handed to all handlers.", "quantifier": "all numbers of workers, handlers, connections and messages, all sets of calls that do not return, all schedules", "why_tests_cant": "the tests' handlers return; it takes as many stuck calls as the machine has cores to show", "anchors": ["node.go:178-197", "client.go:521-549", "node.go:70"]}
{"id": "C113", "title": "An interrupt ends the chat program without a panic", "statement": "However lines, the end of the input and interrupts follow each other, the chat program never panics; the lines it handles are the non-empty ones typed, in order.", "quantifier": "all inputs, all moments at which the input ends or an interrupt comes, all schedules of the two goroutines", "why_tests_cant": "the chat program has no tests, and the panic needs a line to be in hand when the interrupt comes", "anchors": ["cmd/chat/main.go:36-41", "cmd/chat/main.go:95-110", "cmd/chat/main.go:112-133"]}
{"id": "C114", "title": "The benchmarks never report more received than sent", "statement": "Over all the lines that the request benchmark prints, it never reports more responses received than requests sent.", "quantifier": "all numbers of processors and workers, all schedules of the requesting goroutines, the handlers and the goroutine that prints, all runs of any length", "why_tests_cant": "the benchmark programs have no tests, and a surplus needs the printer to come between a handler's count and its requester's", "anchors": ["cmd/benchmark_rpc/main.go:26-42", "cmd/benchmark_rpc/main.go:53-70", "cmd/benchmark_send/main.go:25-40", "cmd/benchmark_send/main.go:51-64"]}
{"id": "C115", "title": "Listening twice is refused", "statement": "Once Listen has returned without an error, and until Close is called, a further call of Listen returns an error, nothing panics, and the node goes on listening.", "quantifier": "all sequences of Listen calls that do not overlap, each with any outcome of binding and of the protocols' Bind, interleaved in any way with the node's accept goroutine and with connections that arrive", "why_tests_cant": "no test calls Listen twice, and the failure needs the second call to come before the accept goroutine has run", "anchors": ["node.go:104-125", "node.go:199-233", "node.go:378-388"]}
{"id": "C116", "title": "Two nodes that connect complete the handshake", "statement": "However the bytes of a connection between two honest nodes are split up and in whatever order the two ends run, if the connection can hold, in at least one direction, each handshake message sent in it, both handshakes finish, and each end has read exactly the two messages that the other has written.", "quantifier": "all messages within the receive limits, second messages that depend in any way on the first ones read, all capacities of the two directions, all portions in which bytes are written and read, all schedules", "why_tests_cant": "both ends write before they read, so whether they can block each other depends on buffer sizes and on scheduling", "anchors": ["client.go:282-338", "client.go:380-476"]}
{"id": "C117", "title": "Nodes whose handlers send messages do not hold each other up for good", "statement": "Let any number of nodes be connected in any way, each with at least one worker, and let their handlers, given a message, call Send any number of times on any connections and return. As long as a message for which Send was called has not been handled, some goroutine of some node can go on, however little room there is on the connections. No message is lost, made up or handled twice; and if what a message leads to is finite, all comes to rest after a bounded number of steps, with every message handled.", "quantifier": "all numbers of nodes, workers and connections, all capacities of the wires, all handlers' reactions, all schedules", "why_tests_cant": "whether nodes can block each other in a circle depends on the fill levels of all buffers and on scheduling", "anchors": ["client.go:340-347", "client.go:517-651", "node.go:178-197"]}
{"id": "C118", "title": "Find returns IDs whose owners are at their addresses", "statement": "Every ID that Find or Discover returns, started from a routing table whose entries are so, is that of a node that answers at the ID's address and holds the ID's key, even if some peers lie about others.", "quantifier": "all networks, all sets of peers that lie and all their answers, all schedules of the lookup", "why_tests_cant": "test networks have no peers that lie", "anchors": ["kademlia/iterator.go:53-72", "kademlia/iterator.go:137-145", "kademlia/iterator.go:161-180", "node.go:330-345"]}
{"id": "C119", "title": "Peers that lie cannot keep Find from asking a peer that an honest one names", "statement": "Whoever is named, in an answer, by a peer that does not lie is asked by Find at an address at which they are.", "quantifier": "all networks, all sets of peers that lie and all their answers, all schedules of the lookup", "why_tests_cant": "test networks have no peers that lie; the order of answers depends on timing", "anchors": ["kademlia/iterator.go:137-145", "kademlia/iterator.go:74-88"]}
{"id": "C120", "title": "The chat program's lists of peers tell which peers they are of", "statement": "What /peers and /discover print determines the peers listed, in order. A peer's message, shown as one line, is never one of the program's own lines (help, lists, peers learned and forgotten). At the start every address given is pinged once, in order, whatever becomes of the others, and exactly the failures are printed.", "quantifier": "all lists of IDs that the library can make, all messages and senders, all lists of addresses and all outcomes of the pings", "why_tests_cant": "whether two different lists can look the same is a question about all pairs of lists", "anchors": ["cmd/chat/main.go:43-44", "cmd/chat/main.go:69-76", "cmd/chat/main.go:160-210"]}
{"id": "C121", "title": "A connection cut inside a message is told from one closed between messages", "statement": "When the bytes of a connection end, the messages received whole have been handed on, in order, and the error then reported for the client is io.EOF, without a warning in the log, exactly when the bytes ended between two messages; otherwise it is io.ErrUnexpectedEOF, with a warning. When the connection ends with another error, that error is reported wherever the bytes stop, with a warning unless this node closed the connection itself.", "quantifier": "all lists of messages, with and without encryption, all places at which the bytes can end, all ways the network cuts them into pieces", "why_tests_cant": "every place in every stream, in every chunking; the one place where it fails is the last byte of a header", "anchors": ["client.go:282-301", "client.go:518-535", "client.go:653-667"]}
{"id": "C122", "title": "A peer that is gone makes room for new ones", "statement": "Suppose a recorded peer is no longer at its address, and everybody else is at theirs. When sixteen peers arrive that are not recorded and belong in its bucket, it is no longer in the routing table.", "quantifier": "all tables, all networks (who answers at which address, how pings of nobody fail), all numbers of arrivals from sixteen on", "why_tests_cant": "it is about every order of the bucket and every pattern of peers that answer and peers that do not; the failing case needs an address that changed hands", "anchors": ["kademlia/protocol.go:82-152", "kademlia/protocol.go:205-207", "kademlia/table.go:67-93"]}
{"id": "C123", "title": "A node that starts can be authenticated by its peers", "statement": "A node made by NewNode with any options that has begun to listen is accepted by every honest peer it shakes hands with, and the peer records exactly the ID the node announces. Keys from GenerateKeys, written down with String and read with LoadKeysFromHex, are the same keys.", "quantifier": "all signature schemes (secret bytes followed by the public key), options, private keys, drawn bytes, listening environments, honest peers, ways of cutting the stream into pieces", "why_tests_cant": "tests use generated keys; the failing case is a key of 64 well-formed bytes whose halves do not belong together, and the claim is about every key and every peer", "anchors": ["keys.go:48-79", "keys.go:97-118", "node.go:77-91", "client.go:380-515"]}
{"id": "C124", "title": "A message no larger than the receiver's limit arrives", "statement": "When a node sends messages whose data is no longer than the maximum message size set at the receiving node, the receiver hands on all of them, in order, and nothing about their size ends the connection.", "quantifier": "all lists of messages of any sizes below 4 GiB, limits, ciphers, ways of cutting the stream into pieces, endings of the connection", "why_tests_cant": "it is about every size around the limit and about everything that is sent after a message that does not fit", "anchors": ["client.go:282-338", "client.go:517-547", "msg.go:10-35", "node_options.go:51-58"]}
{"id": "C125", "title": "The IDs a node hands out are immutable copies", "statement": "An ID that a node keeps (its own, that of a connection, one in its routing table) stays as it is whatever the application does with IDs that it was given by ID(), by the routing table or by a lookup, or that it made itself; what the node tells its peers of that ID stays the same too.", "quantifier": "all histories of handshakes, admissions, lookups, and of the application taking, making and writing to IDs; all kept IDs", "why_tests_cant": "it is about every way in which two ID values can share memory, over every history", "anchors": ["id.go:15-33", "id.go:52-90", "client.go:110-116", "node.go:507-513", "node.go:132-165", "kademlia/table.go:41-93", "kademlia/table.go:154-213"]}
{"id": "C126", "title": "The codec may be used from Marshal methods and decoders", "statement": "Every call of EncodeMessage, DecodeMessage and RegisterMessage returns, whatever calls of the same node's codec the messages' Marshal methods and the registered decoders make, and whatever other goroutines do with it; and while a type is being registered nobody encodes or decodes.", "quantifier": "all numbers of goroutines, all sequences and all nestings of calls, all schedules", "why_tests_cant": "a message made of other messages encodes correctly in every test; it takes a registration at the right moment for the lock never to be free again", "anchors": ["codec.go:18-24", "codec.go:33-56", "codec.go:58-77", "codec.go:79-102", "node.go:238-272"]}
{"id": "C127", "title": "A request that has been given up leaves nothing behind", "statement": "A connection keeps something for a call of Request only until the call has returned: when the context of a call ends and the call returns, what was kept to match its answer is released.", "quantifier": "all schedules of concurrent calls, sends, cancellations, deliveries, answers and drops on one connection", "why_tests_cant": "what is left behind by cancelled calls is not visible in any result, and grows only with their number", "anchors": ["client.go:349-378", "map.go:99-158", "client.go:517-556"]}
{"id": "C128", "title": "A connection in use is not closed to make room while an idle one stays", "statement": "The connection that a full pool closes to make room is the one used least recently, by a call to its peer or by a message sent or received on it; one whose peer has been called stays as long as fewer other peers than the pool has places are called or connect after it.", "quantifier": "all histories of lookups, traffic and ended connections; all limits from 1 on", "why_tests_cant": "it is about every interleaving of traffic and new connections, with pools of every size", "anchors": ["map.go:31-57", "map.go:59-70", "node.go:220-236", "node.go:390-397", "client.go:340-378", "client.go:517-651"]}
{"id": "C129", "title": "Handlers see the messages of one connection in the order in which they came", "statement": "A handler is called with the messages received on one connection in the order in which they were received; with w workers, when it is called with a message, fewer than w earlier messages of that connection are still being handled.", "quantifier": "all schedules of readers, workers and handlers; all numbers of workers, handlers and connections", "why_tests_cant": "it is about every interleaving of the workers, which a test run samples", "anchors": ["client.go:521-548", "node.go:178-197"]}
{"id": "C130", "title": "A failed attempt to respond does not use the response up", "statement": "A handler that answers a request with a message whose type is not registered gets an error, nothing is sent, and it may still answer: of any number of concurrent Send and SendMessage calls on its context whose argument can be encoded, exactly one succeeds, its argument is the one response sent, under the request's nonce, and the others report an error.  On a message that is not a request all of them succeed.", "quantifier": "all interleavings of any number of calls and of type registrations; all nonces, arguments and codecs", "why_tests_cant": "it is about every interleaving of concurrent calls, with any number of failed ones before", "anchors": ["msg.go:72-78", "msg.go:101-108", "codec.go:58-76", "client.go:340-347"]}
{"id": "C131", "title": "A message of any size is handed on whole or not at all", "statement": "Over an encrypted connection, messages of any size may be sent, even of 4 GB and more, whose length does not fit into the 4 bytes in front of them: the receiver hands on, whole and in order, the messages before the first that takes more bytes than its limit, then has an error, and hands on nothing of that message or of what follows it.", "quantifier": "all sequences of messages of all sizes, all limits from 1 to 2^32 - 5, all chunkings, all ciphers that refuse a sealed message whose end is missing", "why_tests_cant": "messages of more than 4 GB, every chunking and every limit", "anchors": ["client.go:282-313", "client.go:315-338", "client.go:599-624", "aead.go:41-50"]}
{"id": "C132", "title": "Chat commands are carried out and not sent", "statement": "In the chat program a typed line that begins with a slash is sent to nobody: /discover discovers, /peers lists the known peers, anything else prints the help, once for each such line; a line that does not begin with a slash is sent to the known peers and nothing else is done with it.", "quantifier": "all inputs, all routing tables", "why_tests_cant": "inputs of any number of lines of any length", "anchors": ["cmd/chat/main.go:113-133", "cmd/chat/main.go:211-242"]}
{"id": "C133", "title": "Applications may sign with their node's key", "statement": "Whatever the application of an honest node signs with Node.Sign and hands out, nobody can use it to complete a handshake under that node's identity, or to read what is sent to it.", "quantifier": "all attackers, all numbers of nodes and sessions, all interleavings, all things the applications are willing to sign", "why_tests_cant": "an attacker chooses what it has signed from an unbounded set, in any interleaving with any number of handshakes", "anchors": ["node.go:471-474 Sign", "keys.go:97-99 Sign", "client.go:453-495 handshake"]}
{"id": "C134", "title": "The two ends of a connection agree on who they are", "statement": "If a node has completed a handshake and learnt the ID of another honest node, then that node, at the other end of the connection, has learnt the first node's ID or nothing, so that what the first node sends is never taken for somebody else's.", "quantifier": "all attackers on the network, all numbers of nodes and sessions, all interleavings; in bytes: all ciphers, signature schemes, honest parties and chunkings", "why_tests_cant": "the attacker's messages are not enumerable", "anchors": ["client.go:380-515 handshake", "client.go:453-495", "msg.go:44-46 HandlerContext.ID"]}
{"id": "C135", "title": "A recorded connection cannot be replayed as another one", "statement": "Somebody who has recorded connections of a node, or carries several at a time, cannot make anybody complete a second handshake with that node by playing back what the node sent, nor have a message of one connection accepted on another: connections whose handshakes have been completed with the ID of another honest node have different keys and different connections of that node at their other ends, and all that is accepted on one was sent on it. (Applications do not sign what the handshake signs, C133; on the same connection messages can be replayed, C64.)", "quantifier": "all attackers on the network, all numbers of nodes and sessions, all interleavings, all things signed by applications that do not look like a handshake", "why_tests_cant": "recordings and attackers are not enumerable", "anchors": ["client.go:380-515 handshake", "client.go:282-313 read"]}
{"id": "C136", "title": "Whoever connects and does not complete the handshake is dropped", "statement": "There is a time, which depends only on the node's idle timeout, after which the handshake on an accepted connection is over, successfully or not, however slowly the peer sends or takes bytes and even if it does nothing at all. Hence the places for inbound connections are not held by peers that only connect.", "quantifier": "all idle timeouts, all peers, all sizes of the messages, all times at which bytes arrive and are taken", "why_tests_cant": "a test tries one slow peer; the bound is over all divisions of the messages into pieces and all times at which they arrive", "anchors": ["client.go:282-313 read", "client.go:315-338 write", "client.go:380-515 handshake", "client.go:249-280 inbound"]}
{"id": "C137", "title": "Once Close has returned, the node accepts no more connections", "statement": "On a node on which Listen is not called again once it has succeeded, every call of Close that returns has returned no error; at that moment the node's port is free, and from then on no connection is accepted, whatever happens, whichever of several overlapping calls of Close it was, and also if Close was called before the node had begun to accept.", "quantifier": "all schedules of Listen, its goroutine and any number of calls of Close, all numbers of connections, any number of failures of Listen before it succeeds", "why_tests_cant": "interleavings of the accept loop with several calls of Close are not enumerable", "anchors": ["node.go:109-236 Listen", "node.go:378-388 Close"]}
{"id": "C138", "title": "A peer that reads slowly, but all the time, is sent everything", "statement": "Whatever Send has accepted on a connection is given to a peer that takes at least one byte in every unit of time, in as many units of time as there are bytes or fewer; the connection is not given up as idle while bytes are moving on it.", "quantifier": "all idle timeouts, all numbers and sizes of messages, all times at which they are accepted, all amounts that the peer takes", "why_tests_cant": "tests have peers that read at once; it takes large messages, slow peers and idle timeouts in all combinations", "anchors": ["client.go:340-347 send", "client.go:560-651 writeLoop"]}
