{
 "claims": [
  {
   "property": "C01",
   "status": "proved",
   "theorems": [
    "C01_layout",
    "C01_id_roundtrip",
    "C01_id_encoding_injective",
    "C01_v4_address"
   ],
   "note": ""
  },
  {
   "property": "C02",
   "status": "partial",
   "theorems": [
    "C02_refuted",
    "C02_v4_host_lost"
   ],
   "note": "REFUTED: every non-zero 4-byte host is decoded as host followed by 12 zero bytes, with a different Address. C02_statement keeps the documented claim."
  },
  {
   "property": "C03",
   "status": "proved",
   "theorems": [
    "C03_UnmarshalID",
    "C03_unmarshalMessage",
    "C03_UnmarshalFindNodeRequest",
    "C03_UnmarshalFindNodeResponse",
    "C03_decoders_never_panic",
    "C03_message_roundtrip"
   ],
   "note": "DecodeMessage is covered by C05 theorems."
  },
  {
   "property": "C04",
   "status": "proved",
   "theorems": [
    "C04_hex_roundtrip",
    "C04_accepts_exactly",
    "C04_value",
    "C04_errors"
   ],
   "note": ""
  },
  {
   "property": "C05",
   "status": "proved",
   "theorems": [
    "C05_register",
    "C05_register_only",
    "C05_roundtrip",
    "C05_unregistered_type_refused",
    "C05_unassigned_opcode_refused",
    "C05_decode_total"
   ],
   "note": ""
  },
  {
   "property": "C06",
   "status": "partial",
   "theorems": [
    "C06_refuted",
    "C06_pointer_types_unusable",
    "C06_opcode_overflow"
   ],
   "note": "REFUTED: a registered pointer type can never be encoded (unless its element type is registered too), and beyond 65536 types an opcode selects a later type's decoder."
  },
  {
   "property": "C07",
   "status": "proved",
   "theorems": [
    "C07_frames_roundtrip",
    "C07_cut_stream"
   ],
   "note": ""
  },
  {
   "property": "C08",
   "status": "proved",
   "theorems": [
    "C08_limit",
    "C08_huge_limit_panics"
   ],
   "note": "Limits 2^32-4..2^32-1 are shown to panic on the first read."
  },
  {
   "property": "C09",
   "status": "partial",
   "theorems": [
    "C09_refuted",
    "C09_zero_limit_panics"
   ],
   "note": "REFUTED: with limit 0 every non-empty frame header panics the reader."
  },
  {
   "property": "C10",
   "status": "proved",
   "theorems": [
    "C10_encrypt",
    "C10_write_batch",
    "C10_decrypt"
   ],
   "note": "AEAD primitive is a parameter with its contract as premise."
  },
  {
   "property": "C11",
   "status": "partial",
   "theorems": [
    "C11_one_side_partial",
    "C11_partial",
    "C11_refuted",
    "C11_same_nonces"
   ],
   "note": "REFUTED: math/rand is never seeded, so both endpoints draw the same nonce sequence under the shared key. Proved: one endpoint draws its nonces one after the other from its generator (C11_partial), so they are distinct as long as the generator does not repeat itself (C11_one_side_partial)."
  },
  {
   "property": "C12",
   "status": "proved",
   "theorems": [
    "C12_order",
    "C12_metric",
    "C12_prefix_len",
    "C12_prefix_closer"
   ],
   "note": ""
  },
  {
   "property": "C13",
   "status": "partial",
   "theorems": [
    "C13_refuted",
    "C13_equal_prefix_gives_zero",
    "C13_partial"
   ],
   "note": "REFUTED: PrefixDiff counts differing bits, not equal ones. C13_partial gives its exact value for all keys of one length and every int n."
  },
  {
   "property": "C14",
   "status": "proved",
   "theorems": [
    "C14_sort",
    "C14_any_sort"
   ],
   "note": "The sort is non-decreasing (the doc comment says descending)."
  },
  {
   "property": "C15",
   "status": "proved",
   "theorems": [
    "C15_new_table",
    "C15_structure"
   ],
   "note": "The last bucket also holds self, whose common prefix is 256."
  },
  {
   "property": "C16",
   "status": "proved",
   "theorems": [
    "C16_update",
    "C16_update_zero",
    "C16_delete",
    "C16_delete_by_address"
   ],
   "note": ""
  },
  {
   "property": "C17",
   "status": "partial",
   "theorems": [
    "C17_refuted",
    "C17_partial"
   ],
   "note": "REFUTED: a recorded peer keeps the entry it was inserted with."
  },
  {
   "property": "C18",
   "status": "proved",
   "theorems": [
    "C18_peers"
   ],
   "note": ""
  },
  {
   "property": "C19",
   "status": "partial",
   "theorems": [
    "C19_refuted",
    "C19_partial",
    "C19_right_when",
    "C19_negative_panics"
   ],
   "note": "REFUTED: expansion stops before nearer buckets are visited. C19_partial is the exact set returned; C19_right_when gives two conditions under which the claim holds."
  },
  {
   "property": "C20",
   "status": "partial",
   "theorems": [
    "C20_refuted",
    "C20_partial",
    "C20_returns",
    "C20_deterministic"
   ],
   "note": "REFUTED: when the ping fails to connect, the failed dial's OnPingFailed evicts the first entry with the tail's address, which may be another peer. C20_partial proves the full policy (all four outcomes, all buckets, the events) whenever no other entry shares the unreachable tail's address; C20_returns proves that every call returns."
  },
  {
   "property": "C21",
   "status": "proved",
   "theorems": [
    "C21_own_entry_survives",
    "C21_interleaved"
   ],
   "note": "Every history of Ack calls with any ping outcomes. C21_interleaved extends it to all interleavings, with failed dials to other addresses, when no other peer claims the node's own address (C21_own_address_dial shows the premise is needed there)."
  },
  {
   "property": "C22",
   "status": "partial",
   "theorems": [
    "C22_refuted",
    "C22_partial"
   ],
   "note": "REFUTED for overlapping calls: callbacks run after the table lock is released and may arrive in the wrong order. C22_partial proves it for every history of non-overlapping Acks and failed dials with any ping outcomes."
  },
  {
   "property": "C23",
   "status": "proved",
   "theorems": [
    "C23_request_roundtrip",
    "C23_response_roundtrip",
    "C23_response_overflow",
    "C23_truncated_refused"
   ],
   "note": ""
  },
  {
   "property": "C24",
   "status": "proved",
   "theorems": [
    "C24_queries",
    "C24_result",
    "C24_exhaustive",
    "C24_options"
   ],
   "note": "Find as a machine of goroutines (coordinators, workers, channels with their capacities); every schedule and every answer of the network. Keys in answers are 32 bytes, as the Go type makes them."
  },
  {
   "property": "C25",
   "status": "proved",
   "theorems": [
    "C25_progress",
    "C25_bound",
    "C25_terminates"
   ],
   "note": "A request is assumed to return (answer, error or the 3 s timeout). The bound counts goroutine steps; C25_terminates needs no finiteness assumption because keys have 32 bytes."
  },
  {
   "property": "C26",
   "status": "partial",
   "theorems": [
    "C26_refuted",
    "C26_asks_own_key",
    "C26_target_never_found",
    "C26_partial"
   ],
   "note": "REFUTED: lookupRequest sends Target: id.ID, the asked peer's own key, and init marks the target visited, so a target outside the node's own nearest peers is never asked nor returned. Proved: what is asked instead, and that a target among the nearest peers is asked and heads the result when it answers."
  },
  {
   "property": "C27",
   "status": "partial",
   "theorems": [
    "C27_at_most_workers",
    "C27_partial",
    "C27_not_lost",
    "C27_refuted"
   ],
   "note": "REFUTED: with two workers, both Handle calls can pass the check before either marks the content, so it is delivered twice. Proved: with w workers at most w deliveries (at most one with one worker), for every interleaving; and a handled message is never lost."
  },
  {
   "property": "C28",
   "status": "proved",
   "theorems": [
    "C28_hash_injective",
    "C28_no_echo",
    "C28_sent_decided",
    "C28_skipped_for_a_reason"
   ],
   "note": "\"Before\" is before the goroutine's check of the cache; two overlapping Push calls may both send (C28_overlapping_pushes)."
  },
  {
   "property": "C29",
   "status": "proved",
   "theorems": [
    "C29_terminates",
    "C29_stops_at_rest",
    "C29_reaches_all",
    "C29_origin_not_told",
    "C29_links_once"
   ],
   "note": "At most one send per link needs Handle calls of one node not to overlap between check and mark; termination and coverage hold for every interleaving."
  },
  {
   "property": "C30",
   "status": "proved",
   "theorems": [
    "C30_next",
    "C30_no_reuse",
    "C30_find"
   ],
   "note": "every history of the request map; each method holds the mutex throughout, so one call is one step"
  },
  {
   "property": "C31",
   "status": "proved",
   "theorems": [
    "C31_own_response",
    "C31_clean",
    "C31_delivers"
   ],
   "note": "For every schedule of concurrent calls, sends, cancellations, deliveries and answers (at most one per request, any order), including nonce wrap-around. C31_delivers: an answered call returns its answer by the reader's steps and its own receive."
  },
  {
   "property": "C32",
   "status": "partial",
   "theorems": [
    "C32_refuted",
    "C32_once_per_handler",
    "C32_partial",
    "C32_single_handler",
    "C32_plain"
   ],
   "note": "REFUTED: the flag that guards the single response is copied with the context, so every registered handler can send its own response to the same request. Proved instead: at most one response per handler and request (the first Send is sent, later ones are refused), hence at most one in all with a single handler; messages that are not requests can be answered freely. The response's nonce is the request's: C31."
  },
  {
   "property": "C33",
   "status": "partial",
   "theorems": [
    "C33_refuted",
    "C33_hangs",
    "C33_partial"
   ],
   "note": "REFUTED: nothing closes the channels of pending requests, so a Request whose response was not read before the connection dropped waits for ever unless its context is cancelled. Proved: which pending calls return after a drop, and that cancellation always ends a call."
  },
  {
   "property": "C34",
   "status": "proved",
   "theorems": [
    "C34_fifo",
    "C34_append_only",
    "C34_transmits"
   ],
   "note": "Order, no duplication and no invention are proved for every schedule and idle timeout. No loss while the connection is up: from every reachable state where reader and writer run, Close was not called and the write deadline has not passed, the writer's own steps transmit everything accepted. How an idle timeout takes the writing side of a connection down is C67."
  },
  {
   "property": "C35",
   "status": "partial",
   "theorems": [
    "C35_silently_dropped",
    "C35_refuted"
   ],
   "note": "REFUTED: send always reports success. Proved for every schedule: once Close has begun, no message sent later is ever transmitted, although each send returns nil."
  },
  {
   "property": "C36",
   "status": "proved",
   "theorems": [
    "C36_pool",
    "C36_get"
   ],
   "note": "every history of the inbound pool, limit at least 1 (which C53 guarantees for every option list)"
  },
  {
   "property": "C37",
   "status": "partial",
   "theorems": [
    "C37_refuted",
    "C37_partial"
   ],
   "note": "REFUTED: the outbound pool is limited by the inbound limit (map.go:37); proved: both pools obey the inbound limit"
  },
  {
   "property": "C38",
   "status": "partial",
   "theorems": [
    "C38_refuted",
    "C38_refuted_inbound",
    "C38_deadlock",
    "C38_partial",
    "C38_no_eviction"
   ],
   "note": "REFUTED: an eviction waits for the victim's goroutine while holding the pool lock, and that goroutine needs the lock to leave the pool; C38_deadlock: whatever happens afterwards the evicting call never returns and no other call of that pool makes progress. True part: calls that find room (or their own address) in the pool proceed, and no call evicts while there are fewer addresses than slots."
  },
  {
   "property": "C39",
   "status": "proved",
   "theorems": [
    "C39_first",
    "C39_stable"
   ],
   "note": "For every schedule of the client's goroutines and other reporters."
  },
  {
   "property": "C40",
   "status": "proved",
   "theorems": [
    "C40_no_double_close",
    "C40_ready_before_closed",
    "C40_reader_stopped",
    "C40_reader_signalled",
    "C40_signals_stay",
    "C40_close_idempotent",
    "C40_progress"
   ],
   "note": "For every schedule, network behaviour and side. C40_progress: the client's goroutine is never stuck on its own client (the pool's lock is C38's subject)."
  },
  {
   "property": "C41",
   "status": "partial",
   "theorems": [
    "C41_refuted",
    "C41_partial"
   ],
   "note": "REFUTED: clientDone is raised while the writer still runs. Proved: from then on the writer is never blocked and takes boundedly many steps."
  },
  {
   "property": "C42",
   "status": "proved",
   "theorems": [
    "C42_in_order",
    "C42_complete",
    "C42_one_worker",
    "C42_fifo"
   ],
   "note": "Any number of connections, workers, handlers and messages; handlers' outcomes are arbitrary."
  },
  {
   "property": "C43",
   "status": "partial",
   "theorems": [
    "C43_refuted",
    "C43_dead",
    "C43_partial",
    "C43_closes"
   ],
   "note": "REFUTED: a worker whose handler returns an error ends for good, and after as many errors as there are workers nothing is handled any more. Proved instead: that dead state is permanent and the queue fills (C43_dead); while fewer errors than workers occurred every message read can still reach all handlers (C43_partial); an error closes exactly the connection of its message (C43_closes)."
  },
  {
   "property": "C44",
   "status": "partial",
   "theorems": [
    "C44_refuted",
    "C44_refuted_outbound",
    "C44_partial",
    "C44_no_more"
   ],
   "note": "REFUTED: Close returns as soon as the listener's error is in the channel, before the shutdown has stopped anything (C44_refuted), and outbound connections are never stopped, even after the node has closed down completely (C44_refuted_outbound). Proved: once two calls of Close have returned, every inbound connection has ended and all workers are gone (C44_partial); once the listener is closed and the connection being accepted is in the pool, no connection is added (C44_no_more)."
  },
  {
   "property": "C45",
   "status": "partial",
   "theorems": [
    "C45_refuted",
    "C45_partial",
    "C45_no_dialling"
   ],
   "note": "REFUTED: an outbound connection outlives Close, and the next request on it is sent on the closed work channel, which panics (C45_refuted). Proved: there is no other way to a panic (C45_partial), so a node without outbound connections never crashes (C45_no_dialling). Panics inside user handlers are outside the model."
  },
  {
   "property": "C46",
   "status": "partial",
   "theorems": [
    "C46_hangs",
    "C46_refuted",
    "C46_never_listened",
    "C46_eviction",
    "C46_orphan",
    "C46_jam",
    "C46_partial",
    "C46_no_error"
   ],
   "note": "REFUTED: a Close that runs before the listener goroutine has set the listening flag does not close the listener and waits (C46_refuted, C46_hangs); further ways to hang, each for every continuation: Close without Listen, an eviction from the inbound pool, a connection closed before it was stored, all workers ended with a full queue. Proved: from every state in which the shutdown has begun and none of these obstacles is there, the node by itself ends its workers and the listener goroutine and every pending Close returns (C46_partial). No call returns an error (C46_no_error)."
  },
  {
   "property": "C47",
   "status": "partial",
   "theorems": [
    "C47_refuted",
    "C47_unauthenticated",
    "C47_inbound_partial",
    "C47_outbound_partial"
   ],
   "note": "REFUTED: outbound() ignores a failed handshake, so whoever answers a dialed connection can have plaintext messages decoded and dispatched; proved: accepted connections deliver nothing unless the handshake completed, and then only data read under the session cipher"
  },
  {
   "property": "C48",
   "status": "proved",
   "theorems": [
    "C48_agreement",
    "C48_small_limit"
   ],
   "note": "two honest parties over any chunking; IDs with a 16-byte host (4-byte hosts: see C02); receive limit at least 96 and the encrypted ID's size, which C48_small_limit shows to be needed"
  },
  {
   "property": "C49",
   "status": "proved",
   "theorems": [
    "C49_session",
    "C49_no_panic",
    "C49_authentication",
    "C49_matching_session",
    "C49_data_origin"
   ],
   "note": "C49_session and C49_no_panic: byte level, every input; the others: symbolic model with unbounded sessions and a Dolev-Yao attacker"
  },
  {
   "property": "C50",
   "status": "partial",
   "theorems": [
    "C50_refuted",
    "C50_self_impersonation",
    "C50_partial"
   ],
   "note": "REFUTED: an attacker holding no key returns a node its own signed ID and is accepted under that node's own identity, knowing the session key; proved for every identity other than the node's own"
  },
  {
   "property": "C51",
   "status": "partial",
   "theorems": [
    "C51_attempts",
    "C51_notified",
    "C51_refuted",
    "C51_ctx_stops_partial"
   ],
   "note": "REFUTED in its third part only: when the client has failed and the context is cancelled, select may choose the failed client and the loop dials once more. Proved: at most maxDialAttempts attempts and dials per call; OnPingFailed is called once per protocol by every call that fails and never by one that succeeds; a call that sees its context's error makes no further attempt."
  },
  {
   "property": "C52",
   "status": "partial",
   "theorems": [
    "C52_refuted",
    "C52_hangs",
    "C52_hangs_elsewhere",
    "C52_partial"
   ],
   "note": "REFUTED: if the dial completes after close() ran, the connection is never closed and the cancelled call waits for the peer (C52_hangs); the same if the client is being dialled with another call's context (C52_hangs_elsewhere). C52_partial: in every other reachable state with the pool's lock free, the cancelled call returns by steps of the node alone."
  },
  {
   "property": "C53",
   "status": "proved",
   "theorems": [
    "C53_settings",
    "C53_keys",
    "C53_total",
    "C53_at_least_one",
    "C53_order_irrelevant"
   ],
   "note": ""
  },
  {
   "property": "C54",
   "status": "partial",
   "theorems": [
    "C54_refuted",
    "C54_default_is_disabled"
   ],
   "note": "REFUTED: without the option the idle timeout is 0, i.e. disabled."
  },
  {
   "property": "C55",
   "status": "proved",
   "theorems": [
    "C55_registration_order",
    "C55_frozen_while_listening"
   ],
   "note": "Bind and Handle as atomic calls; overlapping calls are C61, the moment the flag rises is C62."
  },
  {
   "property": "C56",
   "status": "proved",
   "theorems": [
    "C56_conversion",
    "C56_sign_bit",
    "C56_injective"
   ],
   "note": "math/big as Z arithmetic, ModInverse by its documented contract, satisfied by fermat_inverse; 2^255-19 proved prime"
  },
  {
   "property": "C57",
   "status": "proved",
   "theorems": [
    "C57_bound_address",
    "C57_configured_address",
    "C57_own_key",
    "C57_failure_closes",
    "C57_succeeds"
   ],
   "note": "net.Listen, ResolveTCPAddr and protocol Bind callbacks are parameters; net.ParseIP is modelled (M_ParseIP). Zones not modelled."
  },
  {
   "property": "C58",
   "status": "partial",
   "theorems": [
    "C58_refuted",
    "C58_never_usable"
   ],
   "note": "REFUTED: a loopback or unspecified public address, or one without a host, always makes Listen fail."
  },
  {
   "property": "C59",
   "status": "proved",
   "theorems": [
    "C59_key_text",
    "C59_key_text_injective",
    "C59_key_json",
    "C59_id_text",
    "C59_id_text_injective"
   ],
   "note": ""
  },
  {
   "property": "C60",
   "status": "proved",
   "theorems": [
    "C60_ping",
    "C60_find_node",
    "C60_not_a_request",
    "C60_ignored"
   ],
   "note": "For every registration history containing Kademlia's four messages. Entries returned are proved to be distinct recorded peers other than the target, sorted, and as many as possible up to 16; which ones is C19."
  },
  {
   "property": "C61",
   "status": "partial",
   "theorems": [
    "C61_refuted",
    "C61_sequential_partial",
    "C61_only_requested_partial"
   ],
   "note": "REFUTED: the unsynchronised append loses an overlapping call's protocols. Proved: non-overlapping calls are all kept in order; nothing else is ever registered; nothing while the flag is up."
  },
  {
   "property": "C62",
   "status": "partial",
   "theorems": [
    "C62_refuted",
    "C62_flag_down_on_return",
    "C62_partial"
   ],
   "note": "REFUTED: the flag is raised later by the listener goroutine. Proved: once it is up calls change nothing."
  },
  {
   "property": "C63",
   "status": "partial",
   "theorems": [
    "C63_refuted",
    "C63_alone_partial"
   ],
   "note": "REFUTED: sixteen failed dials between Update and Last empty the bucket and Last panics. Proved for calls that do not overlap with others."
  },
  {
   "property": "C64",
   "status": "partial",
   "theorems": [
    "C64_refuted",
    "C64_replay",
    "C64_origin_partial"
   ],
   "note": "REFUTED: every recombination of recorded frames is accepted; proved: with an ideal AEAD every accepted message was encrypted by a holder of the session key"
  },
  {
   "property": "C65",
   "status": "partial",
   "theorems": [
    "C65_not_remembered",
    "C65_refuted",
    "C65_partial"
   ],
   "note": "REFUTED: the cache silently skips keys of 64 KB or more, so two nodes pass a content of 65504 bytes or more to and fro for ever. Proved for smaller contents."
  },
  {
   "property": "C66",
   "status": "proved",
   "theorems": [
    "C66_content",
    "C66_other_types",
    "C66_total"
   ],
   "note": ""
  },
  {
   "property": "C67",
   "status": "partial",
   "theorems": [
    "C67_refuted",
    "C67_half_dead",
    "C34_transmits"
   ],
   "note": "REFUTED: the write deadline is set before waiting for a message, so a flush after an idle period fails and the client stays half dead. Proved: as long as the deadline has not passed (so always without idle timeout) everything accepted is transmitted (C34_transmits)."
  },
  {
   "property": "C68",
   "status": "partial",
   "theorems": [
    "C68_refuted",
    "C68_refuted_inbound",
    "C68_partial"
   ],
   "note": "REFUTED: a Close that finishes before the connection is stored is lost for ever. Proved when no Close finishes before that."
  },
  {
   "property": "C69",
   "status": "proved",
   "theorems": [
    "C69_scalar",
    "C69_agreement"
   ],
   "note": "Under the group law of X25519 on the points that C56's map gives (dh_contract, satisfied by a toy instance)."
  },
  {
   "property": "C70",
   "status": "partial",
   "theorems": [
    "C70_refuted",
    "C70_partial"
   ],
   "note": "REFUTED: a client whose close() has run but whose goroutines have not ended is still handed out. Proved: a client handed out has finished its handshake and has reported no error."
  },
  {
   "property": "C71",
   "status": "proved",
   "theorems": [
    "C71_one_per_address",
    "C71_shared"
   ],
   "note": "for the pool's own locking; covers both pools"
  },
  {
   "property": "C72",
   "status": "partial",
   "theorems": [
    "C72_refuted",
    "C72_partial"
   ],
   "note": "REFUTED: an outbound connection whose handshake failed calls OnPeerDisconnected though OnPeerConnected was never called. Proved: otherwise each is called at most once, in this order; a connected client that has ended has been announced as disconnected; a client that is ready without error has been announced as connected."
  },
  {
   "property": "C73",
   "status": "partial",
   "theorems": [
    "C73_refuted",
    "C73_partial"
   ],
   "note": "REFUTED: responses are handed to the waiting request without OnMessageRecv. Proved: once per message that is no response."
  },
  {
   "property": "C74",
   "status": "partial",
   "theorems": [
    "C74_refuted",
    "C74_partial",
    "C74_flushed",
    "C74_at_most"
   ],
   "note": "REFUTED: when a later message of a batch fails after the buffered writer flushed by itself, earlier messages have been sent and OnMessageSent is not called. Proved: it is called if the writer has not given up, only when all that was taken is flushed or buffered by the connection's writer, and at most once per message sent."
  },
  {
   "property": "C75",
   "status": "partial",
   "theorems": [
    "C75_refuted",
    "C75_refuted_outbound",
    "C75_partial"
   ],
   "note": "REFUTED: OnMessageSent can follow OnPeerDisconnected (the writer is not waited for); with a failed outbound handshake messages are announced without OnPeerConnected. Proved: what holds of the order otherwise."
  },
  {
   "property": "C76",
   "status": "partial",
   "theorems": [
    "C76_stuck",
    "C76_refuted",
    "C76_partial"
   ],
   "note": "REFUTED: a reader that gets a message (not a response) before Listen has run sends on a nil channel and is stuck for good, also after a later Listen or Close; its client reads no responses any more. Proved: after Listen no further reader gets stuck like this and one that is not stuck hands its message over whenever the queue has room."
  },
  {
   "property": "C77",
   "status": "partial",
   "theorems": [
    "C77_leaks",
    "C77_refuted",
    "C77_partial"
   ],
   "note": "REFUTED: a connection from an address that the inbound pool still has a client for is never served or closed. Proved: a connection whose address no other has had gets exactly one client of its own."
  },
  {
   "property": "C78",
   "status": "partial",
   "theorems": [
    "C78_forever",
    "C78_refuted",
    "C78_partial"
   ],
   "note": "REFUTED: with two handlers on the accepting side and one on the dialling side that answer requests, the second response reaches the requester as a request, and the two sides answer each other for ever (C78_forever, every continuation). Proved: the exchange ends, within an explicit number of steps, if the dialling side answers nothing or the accepting side answers at most once."
  },
  {
   "property": "C79",
   "status": "partial",
   "theorems": [
    "C79_own_address",
    "C79_own_eviction",
    "C79_refuted",
    "C79_partial",
    "C79_holds_up_partial"
   ],
   "note": "REFUTED: a callback that calls the node with its own client's address waits for its own goroutine: before it is ready (OnPeerConnected) or before it has ended (OnPeerDisconnected, as in reconnecting); neither the call nor any later call for that address ever returns, in any continuation, even when cancelled (C79_own_address). With a full pool and its own client next to be evicted, a call with a new address hangs and keeps the pool locked for ever (C79_own_eviction). Proved: for an address whose client is ready without error, or a new address while the pool has room, the call can go on to return that client. C79_holds_up_partial: the goroutine that runs a callback is held up exactly until the callback's call has returned, with a client or an error."
  },
  {
   "property": "C80",
   "status": "proved",
   "theorems": [
    "C80_rejected_not_relayed",
    "C80_accepted_relayed"
   ],
   "note": "One node's goroutines, any schedule. The second theorem is for a routing table that does not change meanwhile; 'offered' is when every call has returned."
  },
  {
   "property": "C81",
   "status": "proved",
   "theorems": [
    "C81_sends",
    "C81_delivery"
   ],
   "note": "Over a connection that delivers what is written; same premises on the parties as C48."
  },
  {
   "property": "C82",
   "status": "proved",
   "theorems": [
    "C82_ping",
    "C82_ping_iff",
    "C82_lookup",
    "C82_unregistered_not_sent",
    "C82_lookup_total"
   ],
   "note": "The connection is a parameter here (C31, C81 are about it). Table entries in the form nodes announce them (16-byte hosts; others: C02)."
  },
  {
   "property": "C83",
   "status": "partial",
   "theorems": [
    "C83_refuted",
    "C83_eavesdrop",
    "C83_partial",
    "C83_failed_partial",
    "C83_quiet_partial"
   ],
   "note": "REFUTED: the session key is a field of every log entry after the handshake. C83_eavesdrop: log and recording yield all messages received; the _partial theorems say what else the log depends on."
  },
  {
   "property": "C84",
   "status": "partial",
   "theorems": [
    "C84_refuted",
    "C84_partial",
    "C84_typed"
   ],
   "note": "REFUTED for byte slices (send keeps the caller's slice). C84_partial: holds when queued arrays are left alone. C84_typed: holds outright for typed messages."
  },
  {
   "property": "C85",
   "status": "proved",
   "theorems": [
    "C85_private",
    "C85_stream",
    "C85_apart"
   ],
   "note": "Heap-level receive loop refines recv_all; copies are in arrays of their own."
  },
  {
   "property": "C86",
   "status": "partial",
   "theorems": [
    "C86_refuted",
    "C86_hangs",
    "C86_room_partial",
    "C86_partial",
    "C86_unreachable_partial"
   ],
   "note": "REFUTED: when the entry at the tail of the peer's full bucket has the address just dialled, Ack's ping waits for the client whose callback is running (C86_hangs: in every continuation; concrete schedule in C86_refuted). Proved: with room in the bucket two own steps end the callback; otherwise it can end if the entry to be pinged is at an address with a ready client, or with none while the pool has room. Once the dialling has failed, the callback can only go on by removing the entry, and does so in at most five steps of its own."
  },
  {
   "property": "C87",
   "status": "partial",
   "theorems": [
    "C87_stolen",
    "C87_refuted",
    "C87_impersonates",
    "C87_partial",
    "C87_truthful"
   ],
   "note": "REFUTED: Listen logs the private key in hex at Info level; C87_stolen recovers it from the log of every listening node and C87_impersonates completes the handshake as that node with every honest peer. C87_partial: nothing at Warn and above, nothing from a Listen that fails. The entry's other fields are the addresses and the public key that peers are given (C87_truthful)."
  },
  {
   "property": "C88",
   "status": "partial",
   "theorems": [
    "C88_identity",
    "C88_rejected",
    "C88_refuted",
    "C88_partial",
    "C88_listening_partial"
   ],
   "note": "REFUTED: a node made without bind host and port has the all-zero identity until it listens, and every honest peer rejects it (C88_rejected, general). C88_identity gives the identity for all options; C88_partial: accepted whenever the identity carries the node's own key and a 16-byte host, before or after Listen."
  },
  {
   "property": "C89",
   "status": "proved",
   "theorems": [
    "C89_text",
    "C89_valid",
    "C89_kept",
    "C89_shown"
   ],
   "note": "C89_text: exactly the cleaned form, for every input; C89_valid: always valid text; C89_kept: complete characters kept, also before junk; C89_shown: through the codec to the receiver's screen."
  },
  {
   "property": "C90",
   "status": "partial",
   "theorems": [
    "C90_refuted",
    "C90_partial",
    "C90_pieces"
   ],
   "note": "REFUTED: isPrefix is ignored, so a line over 4096 bytes becomes several messages (C90_refuted; C90_cut and C90_lost show a piece taken as a command and a character lost). C90_partial: true when lines have at most 4095 bytes. C90_pieces: pieces make up what was typed, always."
  },
  {
   "property": "C91",
   "status": "partial",
   "theorems": [
    "C91_refuted",
    "C91_left_out",
    "C91_closest",
    "C91_partial"
   ],
   "note": "REFUTED: a peer known under two keys is sent every line twice (C91_refuted), one with sixteen others closer is sent nothing (C91_left_out). C91_closest: exactly the sixteen closest, for every table; C91_partial: the claim for at most sixteen other peers at distinct addresses."
  },
  {
   "property": "C92",
   "status": "partial",
   "theorems": [
    "C92_refuted",
    "C92_forged",
    "C92_partial",
    "C92_names"
   ],
   "note": "REFUTED: a line feed in a message forges any line of any peer (C92_forged, for every victim and text). C92_partial: what is shown, first line is the sender's, only line without a line feed in the data. C92_names: names do not tell keys apart that agree on four bytes."
  },
  {
   "property": "C93",
   "status": "partial",
   "theorems": [
    "C93_refuted",
    "C93_writing_does_not_help",
    "C93_slow_message_does_not_help",
    "C93_partial",
    "C93_times_out_partial",
    "C93_kept_alive_partial"
   ],
   "note": "REFUTED: the read deadline is set once per message and writing does not move it: for every timeout, a connection written to at every moment (C93_writing_does_not_help) and one on which a long message arrives byte after byte (C93_slow_message_does_not_help) are timed out. Proved: a timeout means no message completed for that long; a quiet connection times out; a message complete before the deadline moves it."
  },
  {
   "property": "C94",
   "status": "proved",
   "theorems": [
    "C94_own_answer",
    "C94_all_answers",
    "C94_read_on",
    "C94_wire"
   ],
   "note": "For a handler that answers a request at most once (one handler; with several see C32)."
  },
  {
   "property": "C95",
   "status": "proved",
   "theorems": [
    "C95_same_address",
    "C95_read_back",
    "C95_no_host"
   ],
   "note": "net.IP.String, JoinHostPort, SplitHostPort and ParseIP are modelled after Go's standard library; no zones."
  },
  {
   "property": "C96",
   "status": "partial",
   "theorems": [
    "C96_refuted",
    "C96_deadlock",
    "C96_partial",
    "C96_answered",
    "C96_few_partial"
   ],
   "note": "REFUTED: two nodes whose handlers ask each other never answer again once each has as many such requests as workers (C96_deadlock, for every number of workers). All requests are answered if nodes can be ordered so that handlers ask only nodes further down (C96_partial); requests are stuck only if some node has more unanswered ones than workers (C96_few_partial). An answered request's own requests were all made and answered, and none was made twice or by nobody (C96_answered)."
  },
  {
   "property": "C97",
   "status": "partial",
   "theorems": [
    "C97_refuted",
    "C97_deaf",
    "C97_rejecting",
    "C97_dial_waits",
    "C97_partial",
    "C97_pushes_apart"
   ],
   "note": "REFUTED: Handle runs Push on the worker with a context that never ends, so a peer in the routing table that accepts connections without answering the handshake (C97_dial_waits) costs a worker per gossip message, and after as many messages as workers no message of any kind is handled again (C97_deaf); so do messages that the application rejects (C97_rejecting). Without such peers everything is handled while a worker is left (C97_partial). What the application pushes itself holds up no worker (C97_pushes_apart)."
  },
  {
   "property": "C98",
   "status": "partial",
   "theorems": [
    "C98_refuted",
    "C98_closure",
    "C98_partial"
   ],
   "note": "REFUTED: a node is asked for its own key and answers with the 16 entries closest to itself, so of a node that knows more than 16 others the farthest are never heard of unless somebody else names them (C98_refuted: one peer that knows 17 others; the last is never asked). C98_closure: whatever the network answers and at any moment, whoever has been asked is a starting peer or was named, by somebody so asked, and when Find ends everybody so named has been asked. C98_partial: nobody outside the reachable nodes is asked in any network; if the own table has at most 16 others and the other tables at most 15 (the asker may take the sixteenth place), the nodes asked are exactly those that can be reached, and the result is the closest of them."
  },
  {
   "property": "C99",
   "status": "partial",
   "theorems": [
    "C99_settings",
    "C99_protocols",
    "C99_crashes",
    "C99_nobody_asked",
    "C99_partial",
    "C99_refuted"
   ],
   "note": "REFUTED: WithIteratorNumParallelLookups(0) divides by zero when the table is not empty; negative lookups, requests or results panic, the last after the search; C99_crashes says exactly which settings crash. With 0 requests per lookup nobody is asked. With positive lookups and requests and results not negative the claim holds (C99_partial), and every setting is the last one given or its default (C99_settings, C99_protocols)."
  },
  {
   "property": "C100",
   "status": "partial",
   "theorems": [
    "C100_before_listen",
    "C100_same_type",
    "C100_listen_again",
    "C100_overlay_missing",
    "C100_partial",
    "C100_refuted"
   ],
   "note": "REFUTED: a Kademlia protocol has no node and no table until Listen binds it, yet its callbacks run for every connection and failed dial, so a node that dials before it listens crashes (C100_before_listen). Listening again crashes after a Listen that failed once Kademlia was bound, and after Close (C100_listen_again). Two protocols with a type in common crash Listen, and gossip over an instance that was not bound crashes on the first gossip message of a peer. Set up, listen once, then use in any way: no crash (C100_partial)."
  },
  {
   "property": "C101",
   "status": "partial",
   "theorems": [
    "C101_received",
    "C101_unbounded",
    "C101_partial",
    "C101_refuted"
   ],
   "note": "REFUTED: send appends to an unbounded buffer and never waits, so one peer that sends one-byte messages and does not read its answers makes the node keep any number of bytes while the connection is up and the writer waits (C101_unbounded, for every bound). What is received and not handled yet is bounded: one message per connection and two per worker (C101_received). If peers wait for their answers, or handlers give none, everything is bounded (C101_partial)."
  },
  {
   "property": "C102",
   "status": "partial",
   "theorems": [
    "C102_partial",
    "C102_overlap",
    "C102_refuted"
   ],
   "note": "REFUTED: a Find called while the search of another Find on the same Iterator goes on replaces the channel both will close, so the two searches never both end and the end of the second is a crash (C102_overlap; a schedule in C102_refuted). Finds called one after another behave as on new Iterators, never crash and always can go on (C102_partial)."
  },
  {
   "property": "C103",
   "status": "partial",
   "theorems": [
    "C103_value",
    "C103_words",
    "C103_partial",
    "C103_addr",
    "C103_any_mix",
    "C103_torn",
    "C103_addr_torn",
    "C103_locked",
    "C103_refuted"
   ],
   "note": "REFUTED: Client.ID, Node.ID and Node.Addr read a field of several words without a lock, so a call during the handshake or Listen can give any mix of the old and the new words (C103_any_mix), such as the peer's key with no address, or an address that crashes its reader (C103_torn, C103_addr_torn). After WaitUntilReady or Listen the values are right (C103_partial, C103_addr), and Logger is always right (C103_locked)."
  },
  {
   "property": "C104",
   "status": "partial",
   "theorems": [
    "C104_partial",
    "C104_closes",
    "C104_refuted"
   ],
   "note": "REFUTED: node.go:399-415 closes the shared connection when the select takes ctx.Done(), which it may though the connection is ready; so one call with an ended context closes a connection that others use, from every reachable state (C104_closes). Nothing else the calls do closes it: there was such a call to its address, or an eviction (C104_partial)."
  },
  {
   "property": "C105",
   "status": "partial",
   "theorems": [
    "C105_partial",
    "C105_gave_up",
    "C105_stale",
    "C105_refuted"
   ],
   "note": "REFUTED: a peer leaves the table though it answers every ping if a caller gives up an attempt to reach it (C105_gave_up), or if a ping sent to the address it had before fails after it came back at another, since protocol.go:128 removes by key (C105_stale). With neither, it stays (C105_partial)."
  },
  {
   "property": "C106",
   "status": "proved",
   "theorems": [
    "C106_authentication",
    "C106_forward_secrecy",
    "C106_later_data",
    "C106_key_known_before",
    "C106_session_leaks"
   ],
   "note": "Symbolic model with perfect cryptography. C106_key_known_before and C106_session_leaks show that the conditions are needed. A peer with the node's own identity is excluded (C50)."
  },
  {
   "property": "C107",
   "status": "partial",
   "theorems": [
    "C107_contract",
    "C107_frames",
    "C107_partial",
    "C107_known_text",
    "C107_fresh",
    "C107_refuted"
   ],
   "note": "REFUTED: the nonces of both ends come from math/rand, which nobody seeds, so two processes that have just started use the same nonces under the same key; who knows what one end said in its i-th message reads what the other said in its i-th (C107_fresh, C107_known_text). If no nonce came twice, only lengths would be learnt (C107_partial)."
  },
  {
   "property": "C108",
   "status": "partial",
   "theorems": [
    "C108_partial",
    "C108_directed",
    "C108_reflected",
    "C108_second_hand",
    "C108_refuted"
   ],
   "note": "REFUTED: both ends seal with the same key and frames carry no direction; handing a caller its own frame back makes its call return its own data (C108_reflected), and reflecting the peer's answer makes the peer answer its own answer (C108_second_hand). What a call returns always comes from its own data by the peer's answers under its nonce (C108_partial); without reflection the claim holds (C108_directed)."
  },
  {
   "property": "C109",
   "status": "partial",
   "theorems": [
    "C109_partial",
    "C109_panics",
    "C109_add_first",
    "C109_rpc",
    "C109_refuted"
   ],
   "note": "REFUTED: Example_messaging and Example_codecMessaging call wg.Add(1) after Send, so a handler may call wg.Done() first and panic (\"negative WaitGroup counter\"), at any of the messages (C109_panics). All runs print a prefix of the lines in order and run to the end unless they panic there (C109_partial); with Add before Send they are right (C109_add_first); Example_rPC and Example_codecRPC are right (C109_rpc)."
  },
  {
   "property": "C110",
   "status": "partial",
   "theorems": [
    "C110_partial",
    "C110_settled",
    "C110_count",
    "C110_refuted"
   ],
   "note": "REFUTED: Node.Ping returns when the dialling end has finished its handshake; the accepting end may not yet have acknowledged the dialler, so Discover there returns nobody. Discover returns everybody reached along pings in their own direction and along answered Protocol.Ping calls in both (C110_partial); the claim holds once every handshake has ended at both ends (C110_settled); then the count is that of all others (C110_count)."
  },
  {
   "property": "C111",
   "status": "partial",
   "theorems": [
    "C111_partial",
    "C111_closed",
    "C111_hangs",
    "C111_refuted",
    "C38_no_eviction"
   ],
   "note": "REFUTED: once a call evicts a client from a full pool, that pool's lock is held for ever and Inbound or Outbound never returns (C111_hangs). Whenever a call returns, it lists no client twice, none that has been closed, and all that have not yet announced their disconnection (C111_partial); a closed client is never listed again (C111_closed). With no more addresses than slots the lock is never held across steps (C38_no_eviction)."
  },
  {
   "property": "C112",
   "status": "partial",
   "theorems": [
    "C112_partial",
    "C112_blocked",
    "C112_refuted"
   ],
   "note": "REFUTED: workers are shared, so as many calls that do not return as there are workers, all from one connection, stop the handling of every connection: no handler is called any more and every connection stalls after one more message (C112_blocked). While fewer calls hang and handlers have failed than there are workers, every message, of any connection, can still be handled (C112_partial)."
  },
  {
   "property": "C113",
   "status": "partial",
   "theorems": [
    "C113_partial",
    "C113_ended",
    "C113_exits",
    "C113_cause",
    "C113_still",
    "C113_refuted"
   ],
   "note": "REFUTED: main closes stdin to end the input goroutine, whose next read then fails with an error that is not io.EOF, so check panics while the node is closing. Proved: without an interrupt no panic; after the end of the input every non-empty line has been handled, in order, and no run panics; main alone always reaches the end after an interrupt; exactly which step panics (C113_cause); and a read under way when stdin is closed can still deliver a line that is handled (C113_still)."
  },
  {
   "property": "C114",
   "status": "partial",
   "theorems": [
    "C114_partial",
    "C114_settled",
    "C114_moves",
    "C114_backlog",
    "C114_refuted"
   ],
   "note": "REFUTED: the handler counts a response before the requester that caused it counts its request, so the printer can report more responses than requests. Proved: what is printed adds up modulo 2^32; the surplus is never more than one round; requests counted never exceed responses counted by more than the workers; equal counts whenever a round is over and nothing is underway; the rounds never get stuck; and for unanswered messages the backlog has no bound (C114_backlog)."
  },
  {
   "property": "C115",
   "status": "partial",
   "theorems": [
    "C115_partial",
    "C115_once",
    "C115_again",
    "C115_refuted",
    "C115_hang"
   ],
   "note": "REFUTED: the flag that Listen checks is set by the accept goroutine, so a second Listen may come before that; it then fails to bind, having overwritten n.listener with nil, and the accept goroutine panics. Proved: the claim holds when the flag was set before each further call; a node on which Listen is not called again after it has succeeded never panics, however often it is closed; of all accept goroutines of a node at most one ends without a panic, so closing a node that was closed and listened again panics (C115_again); and a second Listen can also leave the node so that Close never returns (C115_hang)."
  },
  {
   "property": "C116",
   "status": "proved",
   "theorems": [
    "C116_completes",
    "C116_agrees",
    "C116_room"
   ],
   "note": "Every schedule ends with both ends finished, within twice as many steps as there are bytes, if one direction has room for the messages sent in it; without room for the first message in either direction both ends can block for ever (C116_room)."
  },
  {
   "property": "C117",
   "status": "proved",
   "theorems": [
    "C117_goes_on",
    "C117_once",
    "C117_rests"
   ],
   "note": "C117_rests bounds the steps by the cost of the messages sent, where the cost of a message is at least 6 plus that of all it leads to. With no workers it fails (example C117_no_workers). The price is that writerBuf has no bound (C101)."
  },
  {
   "property": "C118",
   "status": "partial",
   "theorems": [
    "C118_refuted",
    "C118_partial",
    "C118_honest"
   ],
   "note": "REFUTED: lookupRequest does not compare the key of whoever answers with the key of the ID it asks about, so a peer may name any key with its own address (or anybody's) and Find returns that ID. Proved: somebody answered at the address of each ID returned, and an ID that is not genuine was named by a peer that lies; with none, all are genuine (C118_honest)."
  },
  {
   "property": "C119",
   "status": "partial",
   "theorems": [
    "C119_refuted",
    "C119_partial"
   ],
   "note": "REFUTED: peers already heard of are told apart by key alone, so whoever first names a key with a wrong address keeps Find from ever asking the right one. Proved: every key named is asked at exactly one address, which is right unless it was named by a peer that lies."
  },
  {
   "property": "C120",
   "status": "partial",
   "theorems": [
    "C120_refuted",
    "C120_partial",
    "C120_apart",
    "C120_bootstrap"
   ],
   "note": "REFUTED: only four bytes of each key are printed, so peers whose keys begin alike at one address cannot be told apart. Proved: addresses and those four bytes can be read back, for each peer of the list, in order (C120_partial); messages of peers cannot pass for the program's own lines, except by a line feed in them, C92 (C120_apart); the addresses given are pinged and the failures printed (C120_bootstrap)."
  },
  {
   "property": "C121",
   "status": "partial",
   "theorems": [
    "C121_refuted",
    "C121_partial",
    "C121_whole",
    "C121_own"
   ],
   "note": "REFUTED: a connection that ends right after the four bytes of a header is reported as io.EOF, and is not warned about, although a message was lost: read calls io.ReadFull twice, and the second call has then read nothing. Proved: this is the only such place; everywhere else the error and the warning are as stated (C121_partial, C121_whole), and other errors are reported as they are (C121_own)."
  },
  {
   "property": "C122",
   "status": "partial",
   "theorems": [
    "C122_refuted",
    "C122_partial",
    "C122_blocked"
   ],
   "note": "REFUTED: Ack does not compare the key of whoever answers with the key of the entry, so a recorded peer whose address another recorded node has taken over is kept; being never moved from the tail, it is the one pinged each time, and no new peer is admitted to that bucket for as long as this lasts (C122_blocked, any number of arrivals). Proved when nobody answers at the address (C122_partial); fifteen arrivals would not be enough (C122_nonvacuous)."
  },
  {
   "property": "C123",
   "status": "partial",
   "theorems": [
    "C123_refuted",
    "C123_partial",
    "C123_mismatched",
    "C123_kept",
    "C123_generates"
   ],
   "note": "REFUTED: neither LoadKeysFromHex nor WithPrivateKey nor NewNode compares the two halves of a private key, so a node given 64 bytes whose halves do not belong together is made, listens, announces the second half as its key and completes its own side of every handshake, while every honest peer rejects it (C123_mismatched, under a strict scheme). Proved for keys whose halves match, drawn ones included (C123_partial); a generated key survives being written down and read (C123_kept)."
  },
  {
   "property": "C124",
   "status": "partial",
   "theorems": [
    "C124_refuted",
    "C124_partial",
    "C124_payload",
    "C124_default"
   ],
   "note": "REFUTED: the limit is compared with the size on the wire, which has 8 bytes of request nonce and, over AES-GCM, 28 bytes of cipher overhead besides the data, so data of the limit's size is refused with ErrMessageTooLarge; and since that ends the receiver's loop, nothing sent after it is handed on either. Proved exactly: what is handed on is what precedes the first message that takes more than the limit on the wire (C124_partial); over AES-GCM, data of up to 36 bytes less than the limit (C124_payload); with the default limit, up to 4194268 bytes, not the 4 MB that README.md:40 states (C124_default)."
  },
  {
   "property": "C125",
   "status": "partial",
   "theorems": [
    "C125_refuted",
    "C125_partial",
    "C125_untouched",
    "C125_told"
   ],
   "note": "REFUTED: ID() and the routing table return a struct whose Host is a slice sharing its array with the node's own value, so writing to Host of an ID obtained from the node changes that ID in the node, in the connection and in the routing table, and from then on what handshakes and FIND_NODE answers say of it (C125_told), while Address keeps the old value. Proved: key, port and address never change, the host only by a write through a copy of that very ID, never through other IDs, and not at all when the application writes to no Host."
  },
  {
   "property": "C126",
   "status": "partial",
   "theorems": [
    "C126_refuted",
    "C126_partial",
    "C126_stuck",
    "C126_ends",
    "C126_frozen",
    "C126_registers",
    "C126_exclusive"
   ],
   "note": "REFUTED: Marshal and decoders run with the codec's lock held for reading; when one of them calls EncodeMessage or DecodeMessage and a RegisterMessage call has begun to wait in between, all wait for ever, and so does every later call (C126_frozen); one that calls RegisterMessage never returns (C126_registers). Proved: this is the only way to be stuck (C126_stuck); all calls return if methods and decoders do not use the codec or nothing is registered meanwhile (C126_partial, with C126_ends for termination); registration excludes all other calls (C126_exclusive)."
  },
  {
   "property": "C127",
   "status": "partial",
   "theorems": [
    "C127_refuted",
    "C127_partial",
    "C127_answered",
    "C127_unbounded",
    "C127_dropped"
   ],
   "note": "REFUTED: a cancelled call leaves its entry and channel in the request map; with a peer that does not answer any number of entries is kept while no call waits (C127_unbounded), and the end of the connection does not release them (C127_dropped). Proved: the number of entries is exactly that of requests yet to be sent plus requests and answers under way or with the peer (C127_partial), so nothing is left once every request has been answered and the answers read, late answers to cancelled calls included (C127_answered)."
  },
  {
   "property": "C128",
   "status": "partial",
   "theorems": [
    "C128_refuted",
    "C128_partial",
    "C128_victim"
   ],
   "note": "REFUTED: only looking an address up counts as use; inbound connections are looked up once, when accepted, so a busy one is closed while a silent one that connected later stays; likewise an outbound one on which a call waits. Proved: the victim is the one looked up least recently (C128_victim); a connection stays, with the same client, as long as fewer other addresses than places are looked up after it (C128_partial)."
  },
  {
   "property": "C129",
   "status": "partial",
   "theorems": [
    "C129_refuted",
    "C129_partial",
    "C129_one_worker"
   ],
   "note": "REFUTED: with two workers or more (the default is one per CPU) the second of two messages of one connection can reach the handler first. Proved: with w workers, whenever a handler has been called with a message, fewer than w earlier ones of its connection are not done with (C129_partial); with one worker the order is kept (C129_one_worker)."
  },
  {
   "property": "C130",
   "status": "proved",
   "theorems": [
    "C130_one_succeeds",
    "C130_at_most_one",
    "C130_failures_cost_nothing",
    "C130_plain",
    "C130_returns"
   ],
   "note": "Per call of a handler: each handler has its own copy of the flag, so a request can get one response from every handler (C32). C130_returns: every call returns by at most three steps of its own, and on a plain message with success if its argument can be encoded."
  },
  {
   "property": "C131",
   "status": "proved",
   "theorems": [
    "C131_whole_or_not_at_all"
   ],
   "note": "That the cipher refuses a sealed message whose end is missing (what AES-GCM's tag is for) is a hypothesis on the cipher, met by a toy cipher in the example. Without encryption the part announced would be taken for the message; the code sends messages only after the handshake has set the cipher."
  },
  {
   "property": "C132",
   "status": "partial",
   "theorems": [
    "C132_refuted",
    "C132_partial",
    "C132_sent"
   ],
   "note": "REFUTED: a line is passed on in pieces of 4096 bytes, so the end of a longer line that begins with a slash is sent to all known peers (and the end of a longer text may be carried out as a command, C90). Proved: for lines of up to 4095 bytes all of it (C132_partial); for every input what is sent begins with no slash, is not empty and goes to known peers (C132_sent)."
  },
  {
   "property": "C133",
   "status": "partial",
   "theorems": [
    "C133_refuted",
    "C133_attack",
    "C133_partial",
    "C133_authentication",
    "C133_matching_session",
    "C133_data_origin",
    "C133_prefix"
   ],
   "note": "REFUTED: what the handshake signs is the encoded ID and the session key, with nothing that sets it apart from what Node.Sign signs: an attacker that has an application sign these 82 bytes is accepted as that node and reads what is sent to it (C133_attack). Proved: authentication and secrecy hold if no honest application signs its own encoded ID followed by a session key, whatever else it signs (C133_partial, C133_data_origin); it is enough that nothing it signs begins with its own public key (C133_prefix)."
  },
  {
   "property": "C134",
   "status": "partial",
   "theorems": [
    "C134_refuted",
    "C134_attack",
    "C134_bounced",
    "C134_partial",
    "C134_mutual"
   ],
   "note": "REFUTED: both directions of a connection use one key and the second message does not say in which direction it goes or for whom it is: somebody on the network returns a node's own second message to it, and the node completes the handshake with its own ID, while the peer has completed with the right one; what the peer then sends is handled as sent by the node itself (C134_attack; in bytes C134_bounced). Proved: a node at the other end takes the peer for the peer or for itself, at the address that is announced, for nobody else (C134_partial), and if neither takes the other for itself they agree (C134_mutual)."
  },
  {
   "property": "C135",
   "status": "proved",
   "theorems": [
    "C135_other_session",
    "C135_recorded"
   ],
   "note": "On the symbolic model of M_Sign: ideal cryptography, fresh ephemeral keys (GenerateKeys)."
  },
  {
   "property": "C136",
   "status": "partial",
   "theorems": [
    "C136_refuted",
    "C136_kept",
    "C136_partial",
    "C136_ends"
   ],
   "note": "REFUTED: without an idle timeout, which is the default (C54), a peer that connects and says nothing is kept for any length of time. Proved: with an idle timeout the handshake is over within four times it, whatever the peer does, and comes to its end without the peer's doing anything. Computation is taken to need no time."
  },
  {
   "property": "C137",
   "status": "proved",
   "theorems": [
    "C137_deaf",
    "C137_no_error"
   ],
   "note": "For nodes used as documented (Listen not called again after it has succeeded; otherwise C115). That Close returns at all is C46."
  },
  {
   "property": "C138",
   "status": "partial",
   "theorems": [
    "C138_refuted",
    "C138_cut",
    "C138_partial",
    "C138_small_partial",
    "C138_prompt_partial"
   ],
   "note": "REFUTED: one write deadline is set for a whole batch, before the writer even waits for it (C67), and moving bytes does not renew it: for every idle timeout a single message that takes longer than it is cut off, although the peer takes something at every moment (C138_cut). Proved: without an idle timeout everything is given to the peer within as many units of time as it has bytes; with one, the writer does not give up as long as every batch is small enough for the time left when it is taken, and what waits when a batch has been completed is given to the peer if it has no more bytes than the timeout has units of time."
  }
 ]
}