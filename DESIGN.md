# A Rocq (Coq 8.16.1) model of perlin-network/noise

The Go sources are read as text in `/repo` and never run. Everything below is about a Gallina model of them;
the tie to the code is the citation carried by every model definition.

## Layout (`rocq/theories`)

| prefix | content |
|---|---|
| `Base.v` | Go results (value / error / panic), bytes, big-endian integers, bounds-checked slices |
| `Spec.v` | the small independent specification vocabulary used in theorem statements (bit strings, integers, "k closest", ...) |
| `M_*.v` | the model: executable definitions only, each citing file and lines of `/repo` |
| `P_*.v` | lemmas and proofs |
| `Props_*.v` | the property theorems only: statement, `Proof. exact ... Qed.`, `Print Assumptions`, and beside each an `Example` showing a concrete non-trivial case meeting the hypotheses |

Conventions: a Go function that can fail returns `res A := Ok a | Err e | Panic`; `Panic` is a real outcome
(out-of-range slice, nil dereference, close of closed channel, send on closed channel, ...), so "never panics" is a
theorem and "panics" is a finding. Goroutines are explicit program counters of a step function
`step : action -> state -> option state`; a schedule is a list of actions and every theorem about schedules is an
induction over all of them. External code (network, Ed25519, X25519, AES-GCM, DNS, OS) is a function argument of the
model, universally quantified in theorems, with its assumed contract as an explicit premise when one is needed, and a
concrete instance of the premise proved satisfiable beside it.

A property that is false of the code is stated as documented, and its negation is proved as `..._refuted` with a concrete
witness; the strongest true part is proved beside it. MANIFEST status of such a property is `partial`, its note starting
with `REFUTED`.

## Plan per property

| id | modelled | proof |
|---|---|---|
| C01 | id.go codec over bytes | round-trip by list algebra |
| C02 | same, 4-byte host | refuted by witness + general description of what the peer sees |
| C03 | all decoders with bounds-checked slicing | case analysis, totality: result is never `Panic`; exact acceptance condition |
| C04 | hex encode/decode of encoding/hex as used by keys.go | round-trip; iff characterisation by induction on the string |
| C05 | codec.go as state machine over registration histories, types as codes | invariant by induction over histories; round trip |
| C06 | same | refuted: pointer type witness; 65537-type history (general lemma, not enumeration) |
| C07 | frame writer, chunked stream reader | induction over messages; ReadFull over chunks = over concatenation |
| C08 | read() with uint32 arithmetic modulo 2^32 | case analysis with bounds |
| C09 | same with limit 0 | refuted for every non-empty frame |
| C10 | slices with explicit backing array, len, cap; AEAD as a parameter | symbolic execution lemmas for append/copy; round trip from AEAD contract |
| C11 | math/rand as deterministic generator from the fixed default seed | refuted: both endpoints draw the same first nonce |
| C12, C13, C14 | binary.go | bit-level specs in `Spec.v` |
| C15-C17 | table.go | invariant by induction over operation histories; C17 refuted |
| C18, C19 | FindClosest/Peers | Peers: full proof; general target refuted, partial theorem |
| C20-C22 | Ack with ping oracle and interleaved environment | case analysis / invariant / refutation under concurrency |
| C23 | kademlia/msg.go | induction |
| C24-C26 | iterator.go as a goroutine machine with hostile network | invariants over all schedules; progress; well-founded measure; C26 refuted |
| C27-C29, C80 | gossip per node, and network of nodes | invariants over histories; flooding completeness at quiescence |
| C65 | the network with a cache that skips large keys | refuted by an endless schedule; termination measure below the limit |
| C66 | Handle's front part over the codec | from the codec round trip |
| C30 | requestMap with nonce modulo 2^64 | invariant |
| C31, C33 | requester, links, answering peer | invariants over all schedules; refutations by schedule |
| C34, C35, C39-C41, C67, C68 | one client: goroutine of outbound/inbound, writeLoop, callers of send/Close/reportError, clock (M_Client) | invariants over all schedules; refutations by schedule |
| C32, C42, C43 | any number of connections, workers and handlers; what handlers return and send is arbitrary (M_Work) | every message is in one place (token count) and the trace of its handlers is fixed by that place, by induction over schedules; C32 and C43 refuted by schedules, the dead state of C43 shown permanent for all schedules |
| C36, C37 | clientMap and the pool lock | invariants; deadlock proved for all schedules after eviction |
| C44-C46 | a node's life: Listen, the listener goroutine, both pools with all their clients, workers, any number of Close calls (M_Close) | invariants over all schedules; refutations by schedule; every way of hanging proved for every continuation, and that the shutdown ends and every Close returns when none of them is there |
| C48-C50 | handshake as a function of crypto parameters; symbolic attacker | symbolic execution; Paulson-style invariant; reflection refuted |
| C38, C51, C52, C70, C71 | the pool in use: clientMap with its lock, dialIfNotExists, all clients with their goroutines (M_Dial) | invariants over all schedules; deadlock and hanging calls proved for every continuation |
| C53-C55 | options, NewNode, Bind/Handle | induction over option lists |
| C56 | ecdh.go over Z | modular arithmetic |
| C72-C75 | the protocol callbacks a client makes, as events of M_Client's steps (M_Events) | history invariants over all schedules; refutations by schedule |
| C76 | M_Close: the reader of a dialled client sends on a work channel that is nil before Listen | stuck for every continuation; not stuck after Listen |
| C77 | M_Dial's inbound pool, each client knowing the connection it was created for | invariant over all schedules; the dropped connection stays unserved for every continuation |
| C78 | two ends of a connection: the requestMap, and handlers that answer every request (M_Storm) | invariants over all schedules; potential that never falls / termination measure |
| C79 | M_Dial's outbound pool plus calls that a client's goroutine makes from its callbacks, during which it does nothing else (M_Callback) | a self-wait persists in every continuation, by induction over it; the returning cases by an explicit continuation |
| C69 | ECDH over the converted keys | from C56 and a commutation premise on X25519 |
| C57, C58 | Listen address logic, net.IP predicates | case analysis; refuted |
| C61, C62 | Bind as load/append/store steps; Listen's flag raised by its goroutine | refuted by schedule; invariant for the true part |
| C59 | String/MarshalJSON | hex injectivity |
| C60 | kademlia Handle | case analysis over decoded messages |
| C64 | read/decryptAEAD on recombined recorded frames | refuted for every recombination; origin of accepted messages from an ideal AEAD |
| C81 | the handshake, codec, writer loop and reader put together (M_Pipe) | composition of C05, C10, C48 and the framing lemmas; induction over batches |
| C82 | RequestMessage, Protocol.Ping and lookupRequest over the codec and Handle (M_Rpc) | composition of C05, C23, C60 |
| C83 | the logger's fields after handshake and the entries of a connection (M_Log) | refuted for all cryptography: an eavesdropper on log and wire is defined and proved to read everything; what else the log depends on is proved |
| C84 | Go slices and arrays of the application and the send queue (M_Own) | refuted by a run; proved by invariant for arrays left alone, and outright for typed messages |
| C85 | readerBuf, decryption in place, the copy in recvLoop, holders writing (M_Own) | refinement of the receive loop on the heap to M_Frame's recv_all, invariant that arrays are distinct |
| C86 | Kademlia's OnPeerConnected/Ack on top of the outbound pool and callbacks (M_KadConn) | invariants by induction on schedules, C79's self-wait in every continuation; refutation by schedule; constructed continuation for what holds; invariant over the steps of a callback whose dialling failed |
| C87 | Listen's log entry (M_Identity) on top of NewNode and Listen | refuted by a reader that works on every node; composition with C48 for the impersonation; what holds by computation |
| C88 | the identity a node has after NewNode and after Listen, used in the handshake (M_Identity) | refuted by a run; general rejection from C49_session and the frames sent; acceptance from C48 |
| C89 | strings.ToValidUTF8 on bytes, with Go's table of first bytes (M_Chat); UTF-8 encoding of scalar values as specification (P_Text) | induction on the input: the output is the unique cleaned form; round trip by C05 |
| C90 | bufio's ReadLine with its 4096-byte buffer, input, chat, encode, decode, handle (M_Chat) | refuted by a line of 4097 letters; induction over the remaining input for short lines and for the pieces |
| C91 | chat over the routing table (M_Chat, M_Table) | refuted by a table; C18 for the sixteen closest; permutation argument when there are at most sixteen |
| C92 | handle's printing and the printed form of an ID (M_Chat) | refuted by constructing, for every victim and text, the forging message; case analysis of the decoders for what holds |
| C93 | the reader with its deadline, the writer's deadline, time and arriving bytes (M_Idle) | invariant over schedules; the two refuting schedules constructed for every timeout by induction on time |
| C94 | calls, request map, handler's answers as real messages over two queues (M_Calls); the queues as encrypted streams (M_Pipe, M_Handshake, M_Frame, M_AEAD, M_Codec) | invariant over schedules tying nonces, channels and answers; C81 in both directions over one session |
| C95 | NewID, normalizeIP, net.IP.String, JoinHostPort, SplitHostPort, net.ParseIP (M_Addr, M_ParseIP, M_Node) | ParseIP is a left inverse of String, by induction over groups and digits; hence injectivity |
| C96 | requests, work channels, workers and waiting handlers of any number of nodes (M_Nested) | deadlock reached for every number of workers, closed under steps; else progress by rank or by count, with an exact measure |
| C97 | workers that run gossip's Handle and wait for Push's goroutines (M_GWork, over M_Gossip's steps), sends that do not return (M_Dial) | a state with every worker lost is reached for every table and number of workers and is closed under steps; without silent peers a measure falls |
| C98 | Find of the own key (M_Iter), each answer being FindClosest of some table the answering node may hold (M_Table) | who is asked is the closure of the starting peers under the answers (induction on schedules); with tables of at most 15 others each answer is the whole table; a node with 17 entries refutes the claim |
| C99 | options as functions on the settings, NewIterator, both New (M_Options), over M_Iter and find_result | last one wins, by induction on the options; which settings crash, exactly; with positive ones the invariants of C24 give the rest; zero lookups refute the claim, zero requests ask nobody |
| C100 | calls on a node with protocols whose node and table are nil until bound (M_Boot), over M_Codec | induction on the sequence of calls; a dial before Listen refutes the claim; each way to crash is a theorem (before Listen, listening again, a type twice, overlay not bound), and set-up, Listen, use is proved safe |
| C101 | message sizes in the reader, node.work, the workers, writerBuf and the writer's batch, with peers that may not read (M_Mem) | received bytes: invariant on schedules; one peer that does not read refutes the claim, for every bound, with the writer blocked; a potential per connection bounds what peers that wait for their answers can cause |
| C102 | the fields visited, buckets and results shared by the Finds of one Iterator, each Find the machine of M_Iter on them (M_Share) | one after another: an invariant says ended calls are inert and the current one is a run of M_Iter; overlapping: an invariant on the shared channel shows both searches cannot end, and a schedule refutes the claim |
| C103 | a field of several machine words, written and read word by word, with or without a lock, and the signal (ready closed, Listen returned) (M_Torn) | invariants on schedules: with the lock a read is the last finished write; without it a reader after the signal gets the value written; every mix of old and new words is possible otherwise, which refutes the claim for the unlocked fields |
| C104 | the pool in use with all its callers and clients (M_Dial, M_Client) | blame invariant over schedules: a connection that nothing is wrong with is closed only after a call to its address has been cancelled before it returned, or after an eviction; the claim itself is refuted, and from every reachable state with a connection in use six steps close it |
| C105 | any number of concurrent calls of Ack and OnPingFailed on one table (M_Kad, M_Table) | invariant over schedules: nobody is removing the peer and pings under way to the owner of its key go to its address; the claim itself is refuted by an attempt to reach the peer that its caller gave up (C104), and by a ping of the address that the peer had before it came back |
| C106 | the symbolic network of M_Sym with leaks of long-term, ephemeral and session keys at any time (M_Leak) | induction over runs and derivations: a product of exponents that the attacker knows has at most one that has not leaked, or is a session key that has leaked; a signature under a key that has not leaked was made by its owner |
| C107 | AES-GCM as a stream cipher with an arbitrary key stream per nonce and an arbitrary tag (M_Ctr), with the frames and the nonces of M_AEAD | one-time pad argument: if no nonce comes twice, an involution on key streams maps the wire of one set of messages to that of any other of the same lengths; refuted since two fresh processes draw the same nonces (C11): an eavesdropper function is given that recovers the text of one end from that of the other |
| C108 | requests over a network that hands either end any sealed message again, in any order, with or without reflection (M_Reflect) | invariant over all schedules: while a request is pending, every message with its nonce comes from it by the peer's answers; refuted since a frame says not which end sealed it: the caller's own request comes back as its answer |
| C109 | main, the handlers' calls, the WaitGroup's counter and what is printed (M_Examples), for any list of messages | exact invariant of every reachable state; refuted since Send comes before wg.Add(1): a handler that runs wg.Done() first makes the counter negative, which panics |
| C110 | who has acknowledged whom, connections whose handshake has ended at one end only, returned calls (M_Meet); the lookup of M_Iter, answers from the tables of M_Table | invariant of meetings plus the closure of lookups (C98_closure); refuted since Node.Ping returns when the dialling end has finished, maybe before the other end knows the dialler |
| C111 | the pools in use with all their clients' goroutines (M_Dial, M_Client); a call of Inbound or Outbound needs the pool's lock (M_Maps.cm_slice) | invariant that relates the pool to the clients that have not left it; refuted since an eviction holds the lock for ever (C38_deadlock) |
| C112 | readers, the work channel, workers and handlers' calls (M_Work), calls that never return being calls still running in the later state | one worker alone can serve whatever waits, and calls of others go on; invariants for the blocked case; refuted since the workers are shared by all connections |
| C113 | main's end and the input goroutine, with the lines read ahead and a read that is under way when stdin is closed (M_Quit) | invariant over schedules for the order of the lines and for what a panic needs; refuted by a schedule: a closed stdin gives an error that is not io.EOF, on which check panics |
| C114 | the rounds of goroutines, the handler calls, the two counters modulo 2^32 and the printer that swaps them one after the other (M_Bench) | invariant over schedules that ties each counter to the goroutines and messages underway; refuted by a schedule in which the printer comes between the handler's count and the requester's |
| C115 | Listen, Close and the accept goroutine step by step, with the flag, n.listener, the sockets, the work channels and listenerDone, over any number of calls (M_Listen) | invariants over schedules for calls that come after the flag is set, and for nodes used as documented; refuted by a schedule: a second Listen that comes too soon fails to bind and leaves n.listener nil, which the accept goroutine then uses |
| C116 | both ends' writes and reads byte by byte, the frames with their length field, the reader's buffer and the limited room of both directions (M_Duplex) | invariant that ties what each end has written, what is underway and what the other has read; a measure bounds the steps, and a case analysis shows that some end can always go on; the room is shown to be necessary (C116_room) |
| C117 | every stage a message passes (writerBuf, the batch, the wire with limited room, recvLoop's hand, the channel of work with limited room, the call of the handler) for any graph of nodes (M_Mesh) | no stage waits for an earlier one, since Send only appends: case analysis from the last stage back; weighted sums over all stages give both conservation and the bound |
| C118 | Find's machine of goroutines (M_Iter) in a network given by who answers at each address; peers that lie answer anything | run invariants of C24 applied to whole IDs instead of keys, and a network with one liar for the refutation |
| C119 | as C118 | as C118, with C24_exhaustive for the keys and that no key is asked twice |
| C120 | the lines printed, and the loop that pings, as functions (M_Screen, M_Chat) | the bytes of an address contain no parenthesis and no capital letter; cutting at the parenthesis reads the list back, item by item |
| C121 | isEOF and recvLoop's end as a function over the receive path of M_Frame (M_Ends) | the frame at which the bytes stop is found by splitting the stream, and the specification of io.ReadFull gives the error there |
| C122 | Ack of M_Kad on a network of addresses answered by nodes, with the Ack that sending the ping causes (M_Room) | free places plus the number of entries behind the peer go down by one with each arrival, whether the oldest entry answers (it moves to the front) or not (it is replaced) |
| C123 | GenerateKeys (M_KeyPair), NewNode and Listen (M_Node), handshake (M_Handshake); a scheme contract for Sign/Verify, and for the rejection an idealised one (a signature passes for no key but that of the secret bytes) | both sides' runs reduced to one signature check (as C48, without assuming it succeeds); what key NewNode ends up with |
| C124 | frames and recv_all of M_Frame, the receiver's loop with its limit | the messages before the first that does not fit are read (C07's induction over the frames), and the length of that one is refused before anything of it is read |
| C125 | ID values with Host as a reference into a heap (M_Alias) | invariant over histories: no two kept IDs of different origin share an array, none shares one with the application's slices |
| C126 | goroutines with nested calls over a sync.RWMutex in which a waiting writer keeps new readers out (M_CodecLock) | invariant over schedules: the readers are those the goroutines hold, who keeps readers out is in Lock; stuck states characterised |
| C127 | M_Conn (the request map, calls with program points, both directions of the connection) | conservation law by induction over schedules: entries = requests about to be sent + requests and answers under way; unboundedness by a family of schedules |
| C128 | M_Maps' pool with the traffic on its connections (M_Use) | the pool's order is that of last lookups, sorted by induction over histories; working set by induction over what follows a lookup |
| C129 | M_Work's readers, queue and workers | what comes before a message held by a worker on its connection is done with or held by another worker (first in, first out; every message in one place), counted by pigeonhole; induction over schedules |
| C130 | one handler's context, used by any number of goroutines while types are registered (M_Respond, with M_Codec's encode) | invariant: the flag is set iff exactly one call has won it; what is queued is a permutation of the arguments of the calls that returned nil; induction over schedules; progress by at most three steps |
| C131 | M_Frame's receiver on M_AEAD's frames, whose length field is taken modulo 2^32 | the frame of the first message that does not fit announces either too much or a proper part of what was sealed, which the cipher refuses; the messages before it by C07's lemmas |
| C132 | M_Chat's input and chat | lines passed on are the lines typed when short (P_Lines), then induction over them; refutation by a command of 4097 bytes |
| C133 | the handshake of M_Sym with signatures handed out by applications (M_Sign); in bytes on M_Handshake | invariant on what the attacker can derive, with one more source of signatures; refutation by a run in which an application signs what it is asked to; in bytes from C49_session |
| C134 | M_Sign's runs; in bytes M_Handshake | a key that two honest sessions share is unknown to the attacker, so the second message accepted under it is one of the two sent; refutation by returning a node's second message to it, in both models |
| C135 | M_Sign's runs | a key that the attacker does not have is held by exactly two sessions (C133's invariant), and a session has one key |
| C136 | the four reads and writes of the handshake with their deadlines, and a clock (M_Timely) | invariant: the i-th operation ends within i+1 idle timeouts, since its deadline is set once and not renewed by partial progress; that the end comes by a measure; refutation by a peer that says nothing to a node without an idle timeout |
| C137 | M_Listen's runs | invariant: the flag is set, or a call of Close is about to close the socket, only while the socket is open; the channel is written to only when it is closed; a closed socket is not opened again |
| C138 | send and the writer with its deadline, messages by length, a clock and a peer that takes something in every unit of time (M_Drip) | invariant: what is left of a batch fits into the time left, if it did when it was taken; nothing accepted is lost; for every timeout a message that is longer, given up while the peer takes a byte at every moment |
| C63 | same machine as C20-C22 | refuted by schedule; proved for calls that do not overlap |

## Trusted base

* Coq 8.16.1's kernel, and its virtual machine where `vm_compute` closes a concrete case; `coqchk` checks the compiled files.
* The standard library. No axiom of it is used: `Print Assumptions` answers `Closed under the global context` for every
  theorem listed below.
* The reading of the Go code in the `M_*.v` files. Every definition there cites file and lines and says what it simplifies.
* The contracts of external code that appear as premises: an AEAD's Seal and Open (`aead_contract`), signatures that verify
  (`party`), X25519's commutation (`dh_contract`), ModInverse, a sort that sorts, an `append`
  that grows enough. Each is shown satisfiable by an instance beside the theorem that uses it.

### What is modelled

| code | model | simplified |
|---|---|---|
| addr.go, id.go, keys.go (text, JSON, hex, UnmarshalSignature, Public) | M_Addr, M_ID | net, strconv and hex as their documented functions; zones left out |
| keys.go GenerateKeys, Sign, Verify; node.go Sign | parameters of M_Handshake and M_Node; ideal in M_Sym | Ed25519 itself |
| ecdh.go | M_Ecdh | math/big as Z; X25519 is a parameter |
| aead.go, buffer reuse in writeLoop | M_AEAD | AES-GCM is a parameter; its size limit left out |
| msg.go, kademlia/msg.go, gossip/msg.go | M_Msg, M_Codec, M_Gossip | |
| codec.go | M_Codec | reflection reduced to type names and pointers; the lock makes each call one step |
| node.go EncodeMessage, DecodeMessage, SendMessage, RequestMessage | M_Codec, M_Pipe, M_Rpc | |
| kademlia/protocol.go Ping, iterator.go lookupRequest (values) | M_Rpc | what Request returns is a parameter |
| who holds which slice: send, writeLoop, encode, read, recvLoop's copy | M_Own | the writer takes messages one by one |
| Kademlia's OnPeerConnected on the goroutine of a client of the outbound pool | M_KadConn | other protocols' callbacks; Acks made once the client is ready are among the table's other users |
| what client.go logs on a connection | M_Log | the texts of errors; writeLoop's warnings |
| what Listen logs; the node's part of the handshake's environment | M_Identity | the listener's address is a parameter |
| cmd/chat/main.go: input, chat, handle, chatMessage | M_Chat | standard input is a byte string read without error; a SendMessage is recorded, not run; peers' and discover's output |
| the reader's deadline over time, with bytes arriving in pieces | M_Idle | bytes are counted; the buffered reader is unbounded; no error but the timeout |
| RequestMessage and handlers' answers with real messages | M_Calls | one handler; the connection as two queues, justified by C94_wire |
| net.ParseIP | M_ParseIP | no zones |
| handlers that call Request | M_Nested | connections made; contexts do not expire, connections do not drop |
| gossip Handle and Push on the workers | M_GWork | no other handlers; which sends return is a parameter |
| kademlia/iterator_options.go, kademlia/protocol_options.go, gossip/events.go; NewIterator, both New, Find, Discover | M_Options | |
| Bind, Listen's binding, the protocols' callbacks before and after (node.go, kademlia/protocol.go, gossip/protocol.go) | M_Boot | |
| sizes of what recvLoop, node.work, the workers, writerBuf and writeLoop hold (client.go, node.go) | M_Mem | |
| one Iterator used for several Finds (kademlia/iterator.go:13-29, 55-106) | M_Share | |
| accessors read while written: Client.ID, Logger, SetLogger, Node.ID, Addr (client.go:100-128, node.go:126-156, 480-513) | M_Torn | words interleave, memory is otherwise sequentially consistent |
| the handshake with secrets leaking as time goes on (client.go:380-495) | M_Leak | Dolev-Yao, as M_Sym |
| AES-GCM seen by an eavesdropper (client.go:438-450, aead.go:28-50) | M_Ctr | a key stream and a tag, both arbitrary |
| requests over frames carried by somebody else (client.go:349-378, 517-558, msg.go:72-78) | M_Reflect | network that repeats, reorders, withholds and reflects sealed messages |
| the documented messaging and RPC examples (example_messaging_test.go, example_codec_messaging_test.go, example_rpc_test.go) | M_Examples | the library reduced to delivery of messages and answers |
| nodes that meet by pinging and then discover each other (example_discovery_test.go, node.go 369-413 with both ends of client.go 380-515) | M_Meet | dialling succeeds and connections last; tables have room |
| cmd/chat/main.go 36-41, 60, 95-133 | M_Quit (the end of the program; M_Chat has the lines) | what callback does; errors of stdin other than its end and its being closed |
| cmd/benchmark_rpc/main.go 24-71, cmd/benchmark_send/main.go 23-65 | M_Bench | failures (check panics); the library, reduced to: each message handled once, each answer given to its requester |
| node.go 109-125, 172-176, 199-233, 378-388 (repeated calls) | M_Listen | connections are counted only; the rest of Listen is one step with any outcome |
| client.go 282-338, 380-476 (both ends at once) | M_Duplex | failures of signatures, decryption and deadlines; the contents of the messages |
| client.go 340-347, 517-640; node.go 178-197 (a graph of nodes) | M_Mesh | dropped connections, handlers that fail or make requests, callbacks; room is counted in messages |
| cmd/chat/main.go 69-76, 160-210 | M_Screen | pflag, the terminal |
| client.go 653-667 | M_Ends | the texts of the warnings |
| kademlia/protocol.go 82-152, 205-207 (who answers a ping) | M_Room | overlapping calls; pings caused by the second Ack |
| keys.go 48-58, node.go 77-85 (drawing keys) | M_KeyPair | ed25519 arithmetic; the random source beyond its outcome |
| id.go 15-33, 64-90, accessors of IDs (memory) | M_Alias | removal from pool and table; concurrent writes; the rest of the node |
| codec.go 33-102 (locking) | M_CodecLock | what is encoded (M_Codec); panics of Marshal, of decoders and of RegisterMessage (the lock is given back by defer) |
| map.go 31-70 with client.go 340-378, 517-651 (use of pooled connections) | M_Use | goroutines and locking of the pool (M_Pool, M_Dial); the victim's end (C38) |
| msg.go 72-108 (Send, SendMessage used concurrently) | M_Respond | nil messages (C06 covers the panic); what becomes of queued messages (M_Conn) |
| node.go Sign (471-474), used by applications beside the handshake | M_Sign | as M_Sym; what applications sign is a parameter |
| client.go 282-338, 380-495 (how long a handshake takes) | M_Timely (bytes by count) | the contents of the messages; the time that computing takes |
| client.go 340-347, 560-651 (a peer that reads slowly) | M_Drip (messages by length) | the contents of the messages; what the connection can hold; closing; the time that computing and callbacks take |
| map.go | M_Maps (data), M_Conn (requests in use), M_Dial (pool in use, with its lock) | |
| client.go read, write, recvLoop's decoding | M_Frame | deadlines appear as the error that ends the connection |
| client.go handshake | M_Handshake (bytes), M_Sym (attacker) | a failed write transmits nothing |
| client.go goroutines, channels, Close, reportError, deadlines, WaitUntilReady, WaitUntilClosed | M_Client, M_Events | contents of messages; time advances in ticks |
| client.go request, send and the answering peer | M_Conn, M_Storm | one connection at a time |
| node.go workers, msg.go Send | M_Work | what a handler does besides sending and returning |
| node.go NewNode, Bind, Handle, ID, Addr, Listen's address logic; node_options.go | M_Node | OS calls are parameters |
| node.go Listen's goroutines, Close | M_Close | |
| node.go dialIfNotExists, Ping, Send, Request (the connection part) | M_Dial, M_Callback | the DNS lookup of the address; maxDialAttempts at least 1 (C53) |
| kademlia/binary.go, table.go | M_Binary, M_Table | every method is atomic under the table's lock |
| kademlia/protocol.go Ack, OnPingFailed, Handle, events | M_Kad | a ping is an oracle; other goroutines' steps between its steps |
| kademlia/iterator.go and its options | M_Iter | a request is an oracle that returns |
| gossip/protocol.go | M_Gossip | fastcache as a set that forgets at any time and skips keys of 64 KB |

### What is not modelled

* Logging other than a connection's (M_Log) and Listen's (M_Identity), `isEOF` (a parameter of M_Log), `clientSide.String`.
* The Go memory model: unsynchronised accesses are interleaved as single steps (`Bind`'s append is split into its load and
  store, C61); reads and writes of single words only in M_Torn (C103); memory is sequentially consistent.
* The scheduler's fairness: liveness is stated as "no state is stuck and a measure falls" or "some continuation does it".
* Allocation failure, and sizes beyond an `int`.
* Accessors that return a field (`Client.ID`, `Error`, `Table.Self`, `HandlerContext.ID`, `Data`, `Node.Logger`, `Protocol.Table`).
* The programs under `cmd/`, other than chat's input, commands, messages and handler.

### `Print Assumptions`

`Closed under the global context` for each of:

`C01_layout`, `C01_id_roundtrip`, `C01_id_encoding_injective`, `C01_v4_address`, `C02_refuted`, `C02_v4_host_lost`,
`C03_UnmarshalID`, `C03_unmarshalMessage`, `C03_UnmarshalFindNodeRequest`, `C03_UnmarshalFindNodeResponse`,
`C03_decoders_never_panic`, `C03_message_roundtrip`, `C04_hex_roundtrip`, `C04_accepts_exactly`, `C04_value`,
`C04_errors`, `C05_register`, `C05_register_only`, `C05_roundtrip`, `C05_unregistered_type_refused`,
`C05_unassigned_opcode_refused`, `C05_decode_total`, `C06_refuted`, `C06_pointer_types_unusable`,
`C06_opcode_overflow`, `C07_frames_roundtrip`, `C07_cut_stream`, `C08_limit`, `C08_huge_limit_panics`, `C09_refuted`,
`C09_zero_limit_panics`, `C10_encrypt`, `C10_write_batch`, `C10_decrypt`, `C11_one_side_partial`, `C11_partial`,
`C11_refuted`, `C11_same_nonces`, `C12_order`, `C12_metric`, `C12_prefix_len`, `C12_prefix_closer`, `C13_refuted`,
`C13_equal_prefix_gives_zero`, `C13_partial`, `C14_sort`, `C14_any_sort`, `C15_new_table`, `C15_structure`,
`C16_update`, `C16_update_zero`, `C16_delete`, `C16_delete_by_address`, `C17_refuted`, `C17_partial`, `C18_peers`,
`C19_refuted`, `C19_partial`, `C19_right_when`, `C19_negative_panics`, `C20_refuted`, `C20_partial`, `C20_returns`,
`C20_deterministic`, `C21_own_entry_survives`, `C21_interleaved`, `C22_refuted`, `C22_partial`,
`C23_request_roundtrip`, `C23_response_roundtrip`, `C23_response_overflow`, `C23_truncated_refused`, `C24_queries`,
`C24_result`, `C24_exhaustive`, `C24_options`, `C25_progress`, `C25_bound`, `C25_terminates`, `C26_refuted`,
`C26_asks_own_key`, `C26_target_never_found`, `C26_partial`, `C27_at_most_workers`, `C27_partial`, `C27_not_lost`,
`C27_refuted`, `C28_hash_injective`, `C28_no_echo`, `C28_sent_decided`, `C28_skipped_for_a_reason`, `C29_terminates`,
`C29_stops_at_rest`, `C29_reaches_all`, `C29_origin_not_told`, `C29_links_once`, `C30_next`, `C30_no_reuse`,
`C30_find`, `C31_own_response`, `C31_clean`, `C31_delivers`, `C32_refuted`, `C32_once_per_handler`, `C32_partial`,
`C32_single_handler`, `C32_plain`, `C33_refuted`, `C33_hangs`, `C33_partial`, `C34_fifo`, `C34_append_only`,
`C34_transmits`, `C35_silently_dropped`, `C35_refuted`, `C36_pool`, `C36_get`, `C37_refuted`, `C37_partial`,
`C38_refuted`, `C38_refuted_inbound`, `C38_deadlock`, `C38_partial`, `C38_no_eviction`, `C39_first`, `C39_stable`,
`C40_no_double_close`, `C40_ready_before_closed`, `C40_reader_stopped`, `C40_reader_signalled`, `C40_signals_stay`,
`C40_close_idempotent`, `C40_progress`, `C41_refuted`, `C41_partial`, `C42_in_order`, `C42_complete`, `C42_one_worker`,
`C42_fifo`, `C43_refuted`, `C43_dead`, `C43_partial`, `C43_closes`, `C44_refuted`, `C44_refuted_outbound`,
`C44_partial`, `C44_no_more`, `C45_refuted`, `C45_partial`, `C45_no_dialling`, `C46_hangs`, `C46_refuted`,
`C46_never_listened`, `C46_eviction`, `C46_orphan`, `C46_jam`, `C46_partial`, `C46_no_error`, `C47_refuted`,
`C47_unauthenticated`, `C47_inbound_partial`, `C47_outbound_partial`, `C48_agreement`, `C48_small_limit`,
`C49_session`, `C49_no_panic`, `C49_authentication`, `C49_matching_session`, `C49_data_origin`, `C50_refuted`,
`C50_self_impersonation`, `C50_partial`, `C51_attempts`, `C51_notified`, `C51_refuted`, `C51_ctx_stops_partial`,
`C52_refuted`, `C52_hangs`, `C52_hangs_elsewhere`, `C52_partial`, `C53_settings`, `C53_keys`, `C53_total`,
`C53_at_least_one`, `C53_order_irrelevant`, `C54_refuted`, `C54_default_is_disabled`, `C55_registration_order`,
`C55_frozen_while_listening`, `C56_conversion`, `C56_sign_bit`, `C56_injective`, `C57_bound_address`,
`C57_configured_address`, `C57_own_key`, `C57_failure_closes`, `C57_succeeds`, `C58_refuted`, `C58_never_usable`,
`C59_key_text`, `C59_key_text_injective`, `C59_key_json`, `C59_id_text`, `C59_id_text_injective`, `C60_ping`,
`C60_find_node`, `C60_not_a_request`, `C60_ignored`, `C61_refuted`, `C61_sequential_partial`,
`C61_only_requested_partial`, `C62_refuted`, `C62_flag_down_on_return`, `C62_partial`, `C63_refuted`,
`C63_alone_partial`, `C64_refuted`, `C64_replay`, `C64_origin_partial`, `C65_not_remembered`, `C65_refuted`,
`C65_partial`, `C66_content`, `C66_other_types`, `C66_total`, `C67_refuted`, `C67_half_dead`, `C68_refuted`,
`C68_refuted_inbound`, `C68_partial`, `C69_scalar`, `C69_agreement`, `C70_refuted`, `C70_partial`,
`C71_one_per_address`, `C71_shared`, `C72_refuted`, `C72_partial`, `C73_refuted`, `C73_partial`, `C74_refuted`,
`C74_partial`, `C74_flushed`, `C74_at_most`, `C75_refuted`, `C75_refuted_outbound`, `C75_partial`, `C76_stuck`,
`C76_refuted`, `C76_partial`, `C77_leaks`, `C77_refuted`, `C77_partial`, `C78_forever`, `C78_refuted`, `C78_partial`,
`C79_own_address`, `C79_own_eviction`, `C79_refuted`, `C79_partial`, `C79_holds_up_partial`,
`C80_rejected_not_relayed`, `C80_accepted_relayed`, `C81_sends`, `C81_delivery`, `C82_ping`, `C82_ping_iff`,
`C82_lookup`, `C82_unregistered_not_sent`, `C82_lookup_total`, `C83_refuted`, `C83_eavesdrop`, `C83_partial`,
`C83_failed_partial`, `C83_quiet_partial`, `C84_refuted`, `C84_partial`, `C84_typed`, `C85_private`, `C85_stream`,
`C85_apart`, `C86_refuted`, `C86_hangs`, `C86_room_partial`, `C86_partial`, `C86_unreachable_partial`, `C87_stolen`,
`C87_refuted`, `C87_impersonates`, `C87_partial`, `C87_truthful`, `C88_identity`, `C88_rejected`, `C88_refuted`,
`C88_partial`, `C88_listening_partial`, `C89_text`, `C89_valid`, `C89_kept`, `C89_shown`, `C90_refuted`, `C90_partial`,
`C90_pieces`, `C91_refuted`, `C91_left_out`, `C91_closest`, `C91_partial`, `C92_refuted`, `C92_forged`, `C92_partial`,
`C92_names`, `C93_refuted`, `C93_writing_does_not_help`, `C93_slow_message_does_not_help`, `C93_partial`,
`C93_times_out_partial`, `C93_kept_alive_partial`, `C94_own_answer`, `C94_all_answers`, `C94_read_on`, `C94_wire`,
`C95_same_address`, `C95_read_back`, `C95_no_host`, `C96_refuted`, `C96_deadlock`, `C96_partial`, `C96_answered`,
`C96_few_partial`, `C97_refuted`, `C97_deaf`, `C97_rejecting`, `C97_dial_waits`, `C97_partial`, `C97_pushes_apart`,
`C98_refuted`, `C98_closure`, `C98_partial`, `C99_settings`, `C99_protocols`, `C99_crashes`, `C99_nobody_asked`,
`C99_partial`, `C99_refuted`, `C100_before_listen`, `C100_same_type`, `C100_listen_again`, `C100_overlay_missing`,
`C100_partial`, `C100_refuted`, `C101_received`, `C101_unbounded`, `C101_partial`, `C101_refuted`, `C102_partial`,
`C102_overlap`, `C102_refuted`, `C103_value`, `C103_words`, `C103_partial`, `C103_addr`, `C103_any_mix`, `C103_torn`,
`C103_addr_torn`, `C103_locked`, `C103_refuted`, `C104_partial`, `C104_closes`, `C104_refuted`, `C105_partial`,
`C105_gave_up`, `C105_stale`, `C105_refuted`, `C106_authentication`, `C106_forward_secrecy`, `C106_later_data`,
`C106_key_known_before`, `C106_session_leaks`, `C107_contract`, `C107_frames`, `C107_partial`, `C107_known_text`,
`C107_fresh`, `C107_refuted`, `C108_partial`, `C108_directed`, `C108_reflected`, `C108_second_hand`, `C108_refuted`,
`C109_partial`, `C109_panics`, `C109_add_first`, `C109_rpc`, `C109_refuted`, `C110_partial`, `C110_settled`,
`C110_count`, `C110_refuted`, `C111_partial`, `C111_closed`, `C111_hangs`, `C111_refuted`, `C112_partial`,
`C112_blocked`, `C112_refuted`, `C113_partial`, `C113_ended`, `C113_exits`, `C113_cause`, `C113_still`, `C113_refuted`,
`C114_partial`, `C114_settled`, `C114_moves`, `C114_backlog`, `C114_refuted`, `C115_partial`, `C115_once`,
`C115_again`, `C115_refuted`, `C115_hang`, `C116_completes`, `C116_agrees`, `C116_room`, `C117_goes_on`, `C117_once`,
`C117_rests`, `C118_refuted`, `C118_partial`, `C118_honest`, `C119_refuted`, `C119_partial`, `C120_refuted`,
`C120_partial`, `C120_apart`, `C120_bootstrap`, `C121_refuted`, `C121_partial`, `C121_whole`, `C121_own`,
`C122_refuted`, `C122_partial`, `C122_blocked`, `C123_refuted`, `C123_partial`, `C123_mismatched`, `C123_kept`,
`C123_generates`, `C124_refuted`, `C124_partial`, `C124_payload`, `C124_default`, `C125_refuted`, `C125_partial`,
`C125_untouched`, `C125_told`, `C126_refuted`, `C126_partial`, `C126_stuck`, `C126_ends`, `C126_frozen`,
`C126_registers`, `C126_exclusive`, `C127_refuted`, `C127_partial`, `C127_answered`, `C127_unbounded`, `C127_dropped`,
`C128_refuted`, `C128_partial`, `C128_victim`, `C129_refuted`, `C129_partial`, `C129_one_worker`, `C130_one_succeeds`,
`C130_at_most_one`, `C130_failures_cost_nothing`, `C130_plain`, `C130_returns`, `C131_whole_or_not_at_all`,
`C132_refuted`, `C132_partial`, `C132_sent`, `C133_refuted`, `C133_attack`, `C133_partial`, `C133_authentication`,
`C133_matching_session`, `C133_data_origin`, `C133_prefix`, `C134_refuted`, `C134_attack`, `C134_bounced`,
`C134_partial`, `C134_mutual`, `C135_other_session`, `C135_recorded`, `C136_refuted`, `C136_kept`, `C136_partial`,
`C136_ends`, `C137_deaf`, `C137_no_error`, `C138_refuted`, `C138_cut`, `C138_partial`, `C138_small_partial`,
`C138_prompt_partial`.
