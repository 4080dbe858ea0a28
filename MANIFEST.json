{
 "claims": [
  {
   "property": "C01",
   "status": "proved",
   "theorems": [
    "C01_integers_survive"
   ],
   "note": "All ten kinds, all chunk sizes 1..65535, any fragmentation of the stream."
  },
  {
   "property": "C02",
   "status": "partial",
   "theorems": [
    "C02_too_large_refused_partial",
    "C02_uint_refuted"
   ],
   "note": "Proved for every kind except uint; for uint the property is false of the code: every uint above MaxInt64 is sent as a negative number (C02_uint_refuted)."
  },
  {
   "property": "C03",
   "status": "partial",
   "theorems": [
    "C03_round_trip_partial",
    "C03_marshal_unmarshal_partial",
    "C03_string_refuted",
    "C03_slice_refuted",
    "C03_map_refuted"
   ],
   "note": "Proved for values whose sizes stay below the signed limit of their size field (128, 32768, 2^31) and whose chunks stay within 65535 bytes. False beyond: strings and slices with the top bit of the size field set make the decoder panic, maps come back empty (refuted for all such sizes)."
  },
  {
   "property": "C04",
   "status": "proved",
   "theorems": [
    "C04_valid_packstream"
   ],
   "note": "For every accepted value the payload is valid PackStream; for values with a published representation it is exactly that item."
  },
  {
   "property": "C05",
   "status": "proved",
   "theorems": [
    "C05_shortest_integers"
   ],
   "note": "Against every valid representation of the integer, of any width."
  },
  {
   "property": "C06",
   "status": "partial",
   "theorems": [
    "C06_accepts_valid_partial",
    "C06_string_refuted"
   ],
   "note": "Proved for encodings with sizes below the signed limits; false for every 128..255 byte string in its 8-bit form."
  },
  {
   "property": "C07",
   "status": "proved",
   "theorems": [
    "C07_terminates_suffix",
    "C07_stream_terminates"
   ],
   "note": "Payload level (proper suffix) and stream level (termination)."
  },
  {
   "property": "C08",
   "status": "partial",
   "theorems": [
    "C08_no_panic_partial",
    "C08_refuted",
    "C08_exactly_when"
   ],
   "note": "Proved for inputs without explicit-size string/list markers and graph signatures; false in general (size -1, null node id). C08_exactly_when characterises by a grammar the inputs on which it panics."
  },
  {
   "property": "C09",
   "status": "partial",
   "theorems": [
    "C09_cut_reported_partial",
    "C09_cut_stream_reported",
    "C09_string_refuted",
    "C09_exactly_when"
   ],
   "note": "On the wire every truncation is reported. At payload level C09_exactly_when says for all payloads and cuts what happens: the cut is reported, unless it falls into the text with which the payload ends, which is then silently shortened (C09_string_refuted)."
  },
  {
   "property": "C10",
   "status": "partial",
   "theorems": [
    "C10_framing_partial",
    "C10_exactly_when",
    "C10_string_exactly_when",
    "C10_zero_chunk_refuted",
    "C10_long_string_refuted"
   ],
   "note": "Proved for modest messages (no byte string longer than the chunk size, or body at most 65535 bytes). False for chunk size 0 (every value) and for strings longer than 65535 + chunk size. C10_exactly_when gives the exact condition for every message, C10_string_exactly_when for every string (at most 65530 + chunk size bytes, chunk size at least 6)."
  },
  {
   "property": "C11",
   "status": "proved",
   "theorems": [
    "C11_fragmentation_irrelevant"
   ],
   "note": "Result, error and unread bytes are equal for all fragmentations without empty fragments."
  },
  {
   "property": "C12",
   "status": "proved",
   "theorems": [
    "C12_back_to_back"
   ],
   "note": "For any list of values in the domain of C03, on one encoder and one stream."
  },
  {
   "property": "C13",
   "status": "proved",
   "theorems": [
    "C13_broken_link"
   ],
   "note": "For every accepted value, every byte budget k: exactly the first k bytes are on the wire and success iff the whole message fits."
  },
  {
   "property": "C14",
   "status": "partial",
   "theorems": [
    "C14_refused_clean_partial",
    "C14_leak_refuted"
   ],
   "note": "Exact condition proved: clean iff the part encoded before the refusal is shorter than the chunk size; false for every chunk size otherwise."
  },
  {
   "property": "C15",
   "status": "partial",
   "theorems": [
    "C15_reuse_partial",
    "C15_reuse_refuted"
   ],
   "note": "Proved when nothing was encoded before the refusal; otherwise the next message carries the left-over bytes in front (refuted in general form)."
  },
  {
   "property": "C16",
   "status": "proved",
   "theorems": [
    "C16_map_order",
    "C16_map_order_deep"
   ],
   "note": "Top level with lookup equality, and at every depth up to reordering of maps."
  },
  {
   "property": "C17",
   "status": "proved",
   "theorems": [
    "C17_typed_slices"
   ],
   "note": "At every depth, for every element type."
  },
  {
   "property": "C18",
   "status": "proved",
   "theorems": [
    "C18_float64_survive",
    "C18_float32_survive"
   ],
   "note": "All 2^64 double patterns, all 2^32 float patterns by numeric value."
  },
  {
   "property": "C19",
   "status": "proved",
   "theorems": [
    "C19_accepted_exactly"
   ],
   "note": "Both directions."
  },
  {
   "property": "C20",
   "status": "proved",
   "theorems": [
    "C20_datetime_offset"
   ],
   "note": "All instants whose local seconds fit int64, all offsets below 2^31 s, chunk sizes 8..65535."
  },
  {
   "property": "C21",
   "status": "partial",
   "theorems": [
    "C21_zone_id_partial",
    "C21_zone_id_refuted"
   ],
   "note": "Proved where the zone offset at t and at t+offset agree; false wherever they differ."
  },
  {
   "property": "C22",
   "status": "partial",
   "theorems": [
    "C22_sent_duration_refuted",
    "C22_received_duration_refuted",
    "C22_received_partial"
   ],
   "note": "False: every duration sent is refused by the decoder; every received duration without months decodes to zero. C22_received_partial gives exactly what arrives: the product of the components."
  },
  {
   "property": "C23",
   "status": "proved",
   "theorems": [
    "C23_same_bytes",
    "C23_v2_extends_v1"
   ],
   "note": "Encoding for all values without temporal parts; decoding for all inputs."
  },
  {
   "property": "C24",
   "status": "partial",
   "theorems": [
    "C24_points_partial",
    "C24_resend_refuted"
   ],
   "note": "Points sent through pointers arrive; points in the form they are received are refused when sent back."
  },
  {
   "property": "C25",
   "status": "proved",
   "theorems": [
    "C25_received_again"
   ],
   "note": "Every decodable graph value is accepted again; decoding it again yields it whenever its sizes are below the signed limits."
  },
  {
   "property": "C26",
   "status": "proved",
   "theorems": [
    "C26_version_exact",
    "C26_otherwise_error",
    "C26_proposals",
    "C26_best_version",
    "C26_no_version"
   ],
   "note": "Proved for every answer and, with a conforming server, for every version set: the session uses the best common version; without one, opening fails. The no-version theorem assumes the four answer bytes arrive in one read."
  },
  {
   "property": "C27",
   "status": "partial",
   "theorems": [
    "C27_access_mode_refuted",
    "C27_other_metadata_partial"
   ],
   "note": "Refuted: the access mode is inverted (read-only transactions are not marked, write ones are marked read). The other metadata entries are carried as given."
  },
  {
   "property": "C28",
   "status": "partial",
   "theorems": [
    "C28_realm_refuted",
    "C28_token_partial",
    "C28_kerberos",
    "C28_sent_partial",
    "C28_basic_partial",
    "C28_ticket",
    "C28_any_partial"
   ],
   "note": "Refuted for the realm: it is put into the token only if it is empty. Principal, credentials and scheme are as given, and so is the Kerberos ticket; in every version the server reads exactly these and the client's name from the request (texts of at most 65535 bytes; C28_any_partial: any token in a request that fits its chunks)."
  },
  {
   "property": "C29",
   "status": "partial",
   "theorems": [
    "C29_run_partial",
    "C29_begin_partial",
    "C29_fixed_requests",
    "C29_login",
    "C29_pull",
    "C29_discard_refuted"
   ],
   "note": "RUN, BEGIN, INIT/HELLO, PULL and the fixed requests have the published signature and fields in every version. DISCARD_ALL of version 4 lacks its argument (refuted)."
  },
  {
   "property": "C30",
   "status": "partial",
   "theorems": [
    "C30_refused_partial",
    "C30_carried_partial",
    "C30_begin_partial",
    "C30_begin_refuted",
    "C30_tx_query_refuted"
   ],
   "note": "Versions without databases refuse a named database in statements; version 4 carries it. Begin of versions 1 and 2 drops the name, and a statement inside a transaction does not carry it (refuted)."
  },
  {
   "property": "C31",
   "status": "partial",
   "theorems": [
    "C31_in_step_partial",
    "C31_returns_partial",
    "C31_in_step_refuted"
   ],
   "note": "Partial: proved for every history of calls whose request is sent whole or refused before the first byte; refuted for a request that fails after a chunk has been flushed."
  },
  {
   "property": "C32",
   "status": "proved",
   "theorems": [
    "C32_own_rows"
   ],
   "note": "For every history with a conforming server over a working link. In versions 1 and 2 the texts BEGIN, COMMIT and ROLLBACK are control requests without rows."
  },
  {
   "property": "C33",
   "status": "partial",
   "theorems": [
    "C33_statement_partial",
    "C33_control_partial",
    "C33_in_transaction_refuted",
    "C33_never_recovers_refuted",
    "C33_strict_server_refuted"
   ],
   "note": "Partial: every failure is reported with its metadata and, outside a transaction, the session is ready afterwards. Refuted inside a transaction: with versions 3 and 4 the client keeps a transaction that the server has dropped, and never recovers."
  },
  {
   "property": "C34",
   "status": "proved",
   "theorems": [
    "C34_one_transaction",
    "C34_begin_opens"
   ],
   "note": "On any network and after any history."
  },
  {
   "property": "C35",
   "status": "proved",
   "theorems": [
    "C35_ends_once",
    "C35_begins_again"
   ],
   "note": "On any network; the second half (a new transaction can be begun) with a conforming server, for a database name that can be sent."
  },
  {
   "property": "C36",
   "status": "partial",
   "theorems": [
    "C36_atomic_partial",
    "C36_atomic_refuted"
   ],
   "note": "Partial: proved for histories that run no statement in a transaction after a failure in it or after its end; refuted otherwise (a statement of a rolled-back transaction becomes permanent)."
  },
  {
   "property": "C37",
   "status": "partial",
   "theorems": [
    "C37_finished_refuted",
    "C37_ignored_refuted",
    "C37_closed_partial"
   ],
   "note": "Refuted for every network and state: the query methods ignore which transaction they belong to; a statement of a rolled-back transaction is auto-committed. True once the connection has been closed."
  },
  {
   "property": "C38",
   "status": "proved",
   "theorems": [
    "C38_closed_refuses",
    "C38_second_close"
   ],
   "note": "On any network and after any history."
  },
  {
   "property": "C39",
   "status": "partial",
   "theorems": [
    "C39_close_partial",
    "C39_close_refuted",
    "C39_alone_partial",
    "C39_rolls_back_partial"
   ],
   "note": "Partial: against a conforming server proved when no transaction is open or its rollback is accepted; refuted when a transaction has failed: Close can never succeed again. On any network: without a transaction Close closes the socket unless GOODBYE cannot be sent (C39_alone_partial); with one it is Rollback followed, if that succeeds, by such a Close (C39_rolls_back_partial)."
  },
  {
   "property": "C40",
   "status": "partial",
   "theorems": [
    "C40_accepted_partial",
    "C40_reply_partial",
    "C40_accepted_refuted"
   ],
   "note": "Partial: proved for conforming servers; for any network the reply was SUCCESS and the connection is open, or the reply was neither SUCCESS nor FAILURE and the connection is closed without an error (refuted)."
  },
  {
   "property": "C41",
   "status": "proved",
   "theorems": [
    "C41_same_request",
    "C41_mode"
   ],
   "note": "Equality of the whole effect on any network, for every connection this client makes (read mode)."
  },
  {
   "property": "C42",
   "status": "partial",
   "theorems": [
    "C42_own_results_partial",
    "C42_serializable_partial",
    "C42_finishes_partial",
    "C42_begin_steals_refuted",
    "C42_unguarded_refuted"
   ],
   "note": "Partial: statements of any number of goroutines under any schedule are serialised, each gets its own decision, and every schedule ends. Refuted for every other call: none takes the mutex, so it runs through while a statement is in progress; a concurrent Begin takes a row."
  },
  {
   "property": "C43",
   "status": "partial",
   "theorems": [
    "C43_reported_partial",
    "C43_write_partial",
    "C43_read_partial",
    "C43_end_of_stream_refuted",
    "C43_masked_refuted"
   ],
   "note": "Partial: without a FAILURE during the call, the innermost error is that of the transport operation, and that is ErrBadConn unless the stream ended regularly. Refuted: io.EOF at the end of the stream, and a failure during the reset is masked."
  },
  {
   "property": "C44",
   "status": "partial",
   "theorems": [
    "C44_stale_rows_refuted",
    "C44_received_partial",
    "C44_own_partial"
   ],
   "note": "Refuted: after a timeout the late response is taken for the answer to the next query. Proved: on any network the rows are the records received after the request was sent, and while the link works they are those of the statement just executed."
  },
  {
   "property": "C45",
   "status": "partial",
   "theorems": [
    "C45_counts_partial",
    "C45_crashes_refuted",
    "C45_nodes_deleted_partial",
    "C45_names_partial"
   ],
   "note": "Refuted: three of the four accessors panic when there are statistics without theirs; the exact set of panics is proved."
  },
  {
   "property": "C46",
   "status": "proved",
   "theorems": [
    "C46_lending"
   ],
   "note": "For all clusters and histories of one operation after another, if new connections and names are fresh and what is returned was lent. Overlapping borrowers: C58_distinct_partial."
  },
  {
   "property": "C47",
   "status": "proved",
   "theorems": [
    "C47_routing"
   ],
   "note": "For all clusters and histories: each lent connection was dialled at an address the latest usable overview then listed with the right role (with credentials added)."
  },
  {
   "property": "C48",
   "status": "proved",
   "theorems": [
    "C48_opens_n",
    "C48_starts"
   ],
   "note": "n >= 2. The n connections come after one connection for the overview, which is closed. C48_starts shows that starting succeeds on a usable cluster."
  },
  {
   "property": "C49",
   "status": "proved",
   "theorems": [
    "C49_keeps"
   ],
   "note": "For all histories, followed by any borrows, returns and refreshes in which every tested connection works."
  },
  {
   "property": "C50",
   "status": "proved",
   "theorems": [
    "C50_tested"
   ],
   "note": "From every state. The error case says why: all idle connections of the kind were marked or found dead, or closing a dead one failed."
  },
  {
   "property": "C51",
   "status": "partial",
   "theorems": [
    "C51_stubborn_partial",
    "C51_dead_comes_back_refuted"
   ],
   "note": "Full statement refuted: a dead connection that closes properly is enqueued again (removeConn's error test is inverted in Reclaim) and nothing replaces it. Proved: if closing it fails, it is removed and replaced."
  },
  {
   "property": "C52",
   "status": "partial",
   "theorems": [
    "C52_departed_refuted",
    "C52_never_marked_refuted",
    "C52_refresh_only_reads_refuted",
    "C52_new_partial"
   ],
   "note": "Refuted: connStrLookup is never filled, so no connection is ever marked; a connection to a departed leader is lent after the refresh. Proved: connections opened after the latest overview are to servers it lists."
  },
  {
   "property": "C53",
   "status": "partial",
   "theorems": [
    "C53_limits_partial",
    "C53_above_refuted"
   ],
   "note": "Proved for histories without Start after Stop. Refuted with a restart: returning a connection of the previous run exceeds the maximum and balance (for size == bound) never acts."
  },
  {
   "property": "C54",
   "status": "partial",
   "theorems": [
    "C54_stop_partial",
    "C54_leaks_refuted"
   ],
   "note": "Refuted: Stop closes only connections that are already dead (removeConn tests the wrong way round). Proved: the queues are emptied, and each idle connection was either found working or closed."
  },
  {
   "property": "C55",
   "status": "proved",
   "theorems": [
    "C55_fifo",
    "C55_nothing_only_if_empty",
    "C55_looks"
   ],
   "note": "All sequences of Enqueue and Dequeue; Size, IsEmpty and Front tell what is in and what comes next, and Front panics on an empty queue."
  },
  {
   "property": "C56",
   "status": "partial",
   "theorems": [
    "C56_next_partial",
    "C56_start_partial",
    "C56_equal_use",
    "C56_panics_refuted"
   ],
   "note": "Proved while the list of servers does not change. Refuted: after the list shrinks the position is out of range and the next connection panics."
  },
  {
   "property": "C57",
   "status": "partial",
   "theorems": [
    "C57_sizes_partial",
    "C57_negative_refuted"
   ],
   "note": "Proved for n >= 0. Refuted for negative sizes, which are accepted and give a pool without connections."
  },
  {
   "property": "C58",
   "status": "partial",
   "theorems": [
    "C58_borrowers_refuted",
    "C58_only_borrowers_partial",
    "C58_distinct_partial",
    "C58_steps_borrow",
    "C58_steps_reclaim"
   ],
   "note": "Refuted: two borrowers, both under RLock, write the same map. Proved for all interleavings of borrowing, returning, refresher rounds, stopping and starting: without Stop and Start only borrowers clash; borrowers get distinct connections, also while the pool is stopped."
  },
  {
   "property": "C59",
   "status": "partial",
   "theorems": [
    "C59_table_partial",
    "C59_error_partial",
    "C59_any_table",
    "C59_mentions_bolt_refuted",
    "C59_unknown_role_refuted"
   ],
   "note": "Exact characterisation for all overviews (C59_any_table); equals the stated one if only bolt addresses contain the text bolt. Two refutations otherwise."
  },
  {
   "property": "C60",
   "status": "proved",
   "theorems": [
    "C60_failed_refresh",
    "C60_failed_round"
   ],
   "note": "Handler and pool level, all failures."
  },
  {
   "property": "C61",
   "status": "partial",
   "theorems": [
    "C61_contradictory_options_refuted",
    "C61_contradictory_options_partial"
   ],
   "note": "Refuted: routing requested before the connection string is silently forgotten (proved for every non-empty string), and zero-value host/port or an empty connection string do not count. Proved: all other combinations are refused in any order."
  },
  {
   "property": "C62",
   "status": "partial",
   "theorems": [
    "C62_credentials_partial",
    "C62_credentials_refuted",
    "C62_members_partial"
   ],
   "note": "Exact characterisation for host/port clients: the connection gets the configured user and password iff these consist of characters that need no escaping (both directions proved). Refuted in general, with a password that redirects the connection to another host. Also proved for the member connections of a routing pool."
  },
  {
   "property": "C63",
   "status": "partial",
   "theorems": [
    "C63_tls_refuted",
    "C63_members_refuted",
    "C63_tls_partial"
   ],
   "note": "Refuted universally: a client made from host and port with the TLS option always dials plain TCP (the generated string has no tls parameter), and so do a routing pool's member connections even if the connection string asks for TLS. Proved for drivers made from a connection string."
  },
  {
   "property": "C64",
   "status": "partial",
   "theorems": [
    "C64_options_refuted",
    "C64_timeout_parameter_partial",
    "C64_large_refuted"
   ],
   "note": "Refuted universally: connections always use chunk size 65535, and 60 s unless the connection string has a timeout parameter. Proved: the timeout parameter takes effect if its nanoseconds fit into 64 bits; otherwise it becomes another time (refuted)."
  },
  {
   "property": "C65",
   "status": "proved",
   "theorems": [
    "C65_tls_switches"
   ],
   "note": "Proved for all connection strings user:password@host:port?parameters with every way of writing the parameters."
  },
  {
   "property": "C66",
   "status": "proved",
   "theorems": [
    "C66_chains"
   ],
   "note": "Proved for chains of any length."
  },
  {
   "property": "C67",
   "status": "proved",
   "theorems": [
    "C67_log_levels"
   ],
   "note": "Proved as an equivalence with a relational specification for all sequences of level changes and calls."
  },
  {
   "property": "C68",
   "status": "proved",
   "theorems": [
    "C68_closed"
   ],
   "note": "Histories are lists of events over an abstract network; go-commons-pool v2.0.0 is described, not verified."
  },
  {
   "property": "C69",
   "status": "proved",
   "theorems": [
    "C69_exclusive"
   ],
   "note": "For histories in which users give back only what they hold; C69_unfair shows that this is needed."
  },
  {
   "property": "C70",
   "status": "proved",
   "theorems": [
    "C70_limit"
   ],
   "note": "For fair histories and maxima of at least 0 (a negative MaxTotal means no limit in go-commons-pool)."
  },
  {
   "property": "C71",
   "status": "partial",
   "theorems": [
    "C71_reclaim_refuted",
    "C71_reclaim_partial",
    "C71_reclaim_original_partial"
   ],
   "note": "Refuted: ActivateObject replaces a dead connection inside the pooled object, but the object pool finds objects by their original connection, so the replacement is refused. Proved while no connection is found dead, and, whatever dies, of every connection that was not made right after another was found dead."
  },
  {
   "property": "C72",
   "status": "partial",
   "theorems": [
    "C72_served_refuted",
    "C72_served_partial",
    "C72_served_original_partial",
    "C72_ends"
   ],
   "note": "Refuted: each refused replacement occupies a slot for ever, so a pool of one connection serves nobody after one idle death, and the waiting Open blocks Close too. Proved while no connection is found dead; whatever dies, Open waits only when every place is held, refused, found dead or hung, and a waiter is served with the live original that is given back. C72_ends shows the loop of borrowObject ends."
  },
  {
   "property": "C73",
   "status": "partial",
   "theorems": [
    "C73_closes_refuted",
    "C73_closes_partial",
    "C73_closes_original_partial",
    "C73_closes_all_partial"
   ],
   "note": "Refuted: a refused replacement is never closed. Proved: every connection was closed, found dead, hung, is held or was refused, and only replacements are refused; while none is found dead all are closed."
  },
  {
   "property": "C74",
   "status": "partial",
   "theorems": [
    "C74_opens_partial",
    "C74_refuted"
   ],
   "note": "Proved when the four bytes of the version reply arrive in one piece. Refuted otherwise: the handshake reads them with a single Read and gives up if fewer than four arrive."
  },
  {
   "property": "C75",
   "status": "partial",
   "theorems": [
    "C75_nothing_left_partial",
    "C75_refuted",
    "C75_exactly_when"
   ],
   "note": "Proved when the dial itself fails. Refuted after that: a refused login leaves the socket open. C75_exactly_when, for every network: a failed open that had dialled closes the socket exactly if the login is answered with neither SUCCESS nor FAILURE, or with FAILURE and the RESET after it with something other than SUCCESS, and GOODBYE can be sent."
  },
  {
   "property": "C76",
   "status": "partial",
   "theorems": [
    "C76_returns_partial",
    "C76_opens_partial",
    "C76_refuted"
   ],
   "note": "Proved for every network from which only finitely many more messages arrive, after which reads fail. Refuted in general: with a peer that answers every request with a failure, Rollback resets, the reset closes, and closing rolls back again, without end."
  },
  {
   "property": "C77",
   "status": "partial",
   "theorems": [
    "C77_tells_partial",
    "C77_harmless",
    "C77_refuted"
   ],
   "note": "Proved where the read of ValidateOpen looks at the socket; that it never disturbs the connection and never calls a usable connection dead holds in any case. Refuted where a read with a deadline in the past fails without looking, as in Go's net package: a peer that hung up is not noticed."
  },
  {
   "property": "C78",
   "status": "partial",
   "theorems": [
    "C78_rested_partial",
    "C78_refuted"
   ],
   "note": "Proved if no transaction was begun or ended by a statement text. Refuted otherwise: after the statement BEGIN under version 1 MakeIdle leaves the transaction open."
  },
  {
   "property": "C79",
   "status": "proved",
   "theorems": [
    "C79_prepared"
   ],
   "note": "Proved in full, for any network."
  },
  {
   "property": "C80",
   "status": "partial",
   "theorems": [
    "C80_isolated_partial",
    "C80_refuted"
   ],
   "note": "Proved if users do not begin or end transactions by statement texts (which versions 1 and 2 of the protocol allow). Refuted otherwise: the next holder finds itself in the transaction. C79 holds without that condition."
  },
  {
   "property": "C81",
   "status": "partial",
   "theorems": [
    "C81_passed_on_partial",
    "C81_refuted"
   ],
   "note": "Refuted: the routing pool does not call MakeIdle. A statement of the second holder is acknowledged and lost when the first holder rolls back. The partial theorem says that the pool leaves connections exactly as they are given back. C134 shows that the pool is safe if borrowers end their transactions before they give connections back."
  },
  {
   "property": "C82",
   "status": "proved",
   "theorems": [
    "C82_reads_this_grammar"
   ],
   "note": "Both directions, both codec versions, any table of time zones."
  },
  {
   "property": "C83",
   "status": "proved",
   "theorems": [
    "C83_first_obstacle"
   ],
   "note": "For values within the ranges of their Go types."
  },
  {
   "property": "C84",
   "status": "proved",
   "theorems": [
    "C84_temporal_values",
    "C84_structures_read",
    "C84_structures_known",
    "C84_requests"
   ],
   "note": "For every version: values and structures of version 2, the requests about transactions, the farewell, databases and the keys of the summary."
  },
  {
   "property": "C85",
   "status": "proved",
   "theorems": [
    "C85_farewell",
    "C85_understood"
   ],
   "note": "On every network."
  },
  {
   "property": "C86",
   "status": "partial",
   "theorems": [
    "C86_available_partial",
    "C86_available_refuted"
   ],
   "note": "Proved for versions 1 and 2. Refuted from version 3 on: SuccessMessage.GetAvailableAfter looks for the key of versions 1 and 2 only."
  },
  {
   "property": "C87",
   "status": "proved",
   "theorems": [
    "C87_discipline",
    "C87_opening"
   ],
   "note": "On every network (any peer, also a hostile one), for every call and for opening."
  },
  {
   "property": "C88",
   "status": "proved",
   "theorems": [
    "C88_errands",
    "C88_once"
   ],
   "note": "On every network, for every call."
  },
  {
   "property": "C89",
   "status": "proved",
   "theorems": [
    "C89_own_error",
    "C89_foreign_error"
   ],
   "note": "The wording of messages, stacks and foreign errors is a parameter; fmt's %T and runtime/debug.Stack are not modelled."
  },
  {
   "property": "C90",
   "status": "proved",
   "theorems": [
    "C90_printout"
   ],
   "note": "Proved for all byte sequences."
  },
  {
   "property": "C91",
   "status": "partial",
   "theorems": [
    "C91_timeout_refuted",
    "C91_in_time_partial",
    "C91_silence_partial",
    "C91_always_ends",
    "C91_bound_partial",
    "C91_no_patience",
    "C91_as_decoder"
   ],
   "note": "Refuted: each Read sets a new deadline, so a message of n bytes may take n timeouts. Partial: silence is limited (delivered with its last byte if no gap exceeds the timeout, otherwise failure one timeout after the last byte), and the wait is at most (bytes sent + 1) timeouts. Sending is C107, whole calls C108."
  },
  {
   "property": "C92",
   "status": "partial",
   "theorems": [
    "C92_dial_refuted",
    "C92_dial_partial"
   ],
   "note": "Refuted with TLS (tls.Dial is called without the timeout) and with timeout 0 (net.DialTimeout then waits for ever). Holds without TLS and with a positive timeout. The operating system's own limit on connecting is not modelled."
  },
  {
   "property": "C93",
   "status": "partial",
   "theorems": [
    "C93_start_again_refuted",
    "C93_not_restarted_refuted",
    "C93_after_stop_partial",
    "C93_panics_refuted"
   ],
   "note": "Refuted: the pool is marked running before it is filled, so a second Start is refused; and after Stop it panics if the positions reached by the first Start lie outside the new address lists. Proved: after Stop it starts again if the cluster answers and the positions are within the lists."
  },
  {
   "property": "C94",
   "status": "partial",
   "theorems": [
    "C94_only_the_first_refuted",
    "C94_first_stays",
    "C94_stale_table_refuted"
   ],
   "note": "Refuted: only the server the pool was made with is ever asked; while it is unreachable a refresh changes nothing."
  },
  {
   "property": "C95",
   "status": "partial",
   "theorems": [
    "C95_closes_nothing_refuted",
    "C95_left_open_refuted"
   ],
   "note": "Refuted: Start closes no connection but the one that asked for the overview; witness: five connections stay open after the sixth dial failed."
  },
  {
   "property": "C96",
   "status": "partial",
   "theorems": [
    "C96_returned_late_refuted",
    "C96_neither_kept_nor_closed_refuted"
   ],
   "note": "Refuted: Reclaim on a stopped pool returns an error and neither keeps nor closes the connection."
  },
  {
   "property": "C97",
   "status": "partial",
   "theorems": [
    "C97_lists_partial",
    "C97_replicas_twice_refuted"
   ],
   "note": "Holds of the two lists the pool uses. Refuted of getReadConnectionStrings (used by nothing), which names replicas twice."
  },
  {
   "property": "C98",
   "status": "partial",
   "theorems": [
    "C98_some_partial",
    "C98_one_partial",
    "C98_at_most_partial",
    "C98_none_refuted",
    "C98_none_case_refuted",
    "C98_two_refuted"
   ],
   "note": "Refuted: none after a Start that failed, two after Stop and Start within the interval. Partial: at least one if starting went well, at most one without restart, at most one per successful Start. Methods and rounds are steps; overlapping of borrowers is in PoolRace.v."
  },
  {
   "property": "C99",
   "status": "partial",
   "theorems": [
    "C99_one_more_refuted",
    "C99_at_most_partial"
   ],
   "note": "Refuted: each refresher makes one more round after Stop. Partial: exactly that; all dials after Stop go to the first server, one for each such round."
  },
  {
   "property": "C100",
   "status": "partial",
   "theorems": [
    "C100_empty_partial",
    "C100_lent_partial",
    "C100_fails_refuted",
    "C100_left_refuted",
    "C100_clash_refuted",
    "C100_steps_stop"
   ],
   "note": "Refuted: a borrower that takes the last connection between Size and Dequeue makes Stop fail, and it cannot be repeated; a Reclaim that looked before Stop puts its connection into the stopped pool; Stop writes the maps without the mutex. Partial: among borrowers and Stops a Stop that ends well leaves both queues empty, and no lent connection is closed."
  },
  {
   "property": "C101",
   "status": "proved",
   "theorems": [
    "C101_used_by_one"
   ],
   "note": "For all interleavings of any number of clients and Stops, in the step semantics of PoolRace (map operations are atomic there; that they are not in Go is C58)."
  },
  {
   "property": "C102",
   "status": "proved",
   "theorems": [
    "C102_all_end",
    "C102_fuel"
   ],
   "note": "Deadlock freedom and termination for all interleavings of borrowing, returning, starting, stopping and refresher rounds; each connection check, close, dial and refresh of the table is one step that ends. The fuel of the model's loops is never exhausted (clients and Stops)."
  },
  {
   "property": "C103",
   "status": "partial",
   "theorems": [
    "C103_only_stop_partial",
    "C103_touched_refuted",
    "C103_revived_refuted",
    "C103_steps_round"
   ],
   "note": "Proved for all interleavings of clients, refresher rounds, Starts and Stops: only a Stop may touch what a client uses, so nobody does if the pool is not stopped meanwhile. Refuted with Stop: it takes no mutex, so the refresher's prune can put back what Stop has just taken out; a client then borrows what Stop is about to test, and a stopped pool has idle connections again."
  },
  {
   "property": "C104",
   "status": "partial",
   "theorems": [
    "C104_routing_refuted",
    "C104_routing_partial"
   ],
   "note": "Proved for connection strings that contain +routing in the scheme only. Refuted otherwise: the text is looked for and taken out anywhere, so a password that contains it turns routing on and is changed."
  },
  {
   "property": "C105",
   "status": "partial",
   "theorems": [
    "C105_used_by_one_partial",
    "C105_twice_refuted",
    "C105_panic_refuted",
    "C105_clash_refuted",
    "C105_stopped_refuted",
    "C105_lost_refuted",
    "C105_steps_start"
   ],
   "note": "Proved: what a client uses stays its own, whatever Starts and rounds overlap (with Stop see C103), and everybody ends (C102). Refuted: Start takes no mutex, so two Starts may both fill the pool or panic on the shared index, Start and a borrower write to a map at once, a Stop during Start leaves a stopped pool full, and a round of an earlier refresher may throw away everything a new Start opened."
  },
  {
   "property": "C106",
   "status": "proved",
   "theorems": [
    "C106_call",
    "C106_open"
   ],
   "note": "Every call and opening, on every network. Failures of SetReadDeadline and SetWriteDeadline are not modelled."
  },
  {
   "property": "C107",
   "status": "partial",
   "theorems": [
    "C107_timeout_refuted",
    "C107_in_time_partial",
    "C107_outcome_partial",
    "C107_bound_partial",
    "C107_no_patience",
    "C107_as_encoder"
   ],
   "note": "Refuted: each Write sets a new deadline and a message takes at least three Writes. Partial: if the peer takes every byte within the timeout, sending succeeds within it; otherwise it fails only if some byte finds no room until then; the wait is at most one timeout per Write. Time passes only while waiting for the peer."
  },
  {
   "property": "C108",
   "status": "partial",
   "theorems": [
    "C108_timeout_refuted",
    "C108_bound_partial",
    "C108_open_partial",
    "C108_answer_partial",
    "C108_silent_partial"
   ],
   "note": "Refuted: a query may last any number of timeouts. Partial: at most one timeout per byte sent or received plus one for an error (for calls and for opening, without dialling, which is C92); a query whose answer comes without a gap longer than the timeout ends with the last byte of the answer. Stated for peers whose segments are not empty."
  },
  {
   "property": "C109",
   "status": "partial",
   "theorems": [
    "C109_interrupted_refuted",
    "C109_stolen_refuted",
    "C109_alone_partial",
    "C109_harmless_partial"
   ],
   "note": "Refuted: ValidateOpen does not take the mutex and sets the deadline of the socket to now, which ends a Read in progress; or its own Read takes the first byte of the answer. Proved: a query alone gets what C91 says, and callers of ValidateOpen alone take nothing."
  },
  {
   "property": "C110",
   "status": "partial",
   "theorems": [
    "C110_closes_refuted",
    "C110_none_left_refuted",
    "C110_shared_refuted",
    "C110_foreign_partial"
   ],
   "note": "Refuted: Reclaim closes any connection whose identifier is not that of a lent one, also the pool's own idle connections, so that a second return may leave the pool without one; and if somebody else has the connection by then, it is taken from them and lent again. Proved: the pool refuses, and its own records stay the same, also for connections from elsewhere."
  },
  {
   "property": "C111",
   "status": "partial",
   "theorems": [
    "C111_twice_refuted",
    "C111_twice_partial"
   ],
   "note": "Refuted: the object pool still knows a connection that died and was replaced, so returning it a second time takes its successor from its user. Proved of every connection that has not been found dead."
  },
  {
   "property": "C112",
   "status": "partial",
   "theorems": [
    "C112_string_refuted",
    "C112_quoted_refuted",
    "C112_options_refuted",
    "C112_readable_partial",
    "C112_escaped_partial",
    "C112_refused"
   ],
   "note": "Refuted: a string that cannot be read is quoted in full, and clients with a password that needs escaping make such strings themselves. Proved of strings that can be read. Left open: the reason that net/url gives, %q of other characters than printable ASCII, stack traces."
  },
  {
   "property": "C113",
   "status": "partial",
   "theorems": [
    "C113_short_refuted",
    "C113_version_partial"
   ],
   "note": "Refuted: the handshake reads with a single Read (connection.go:245), so an answer of which fewer than four bytes come first is refused. Proved if the four bytes come together, for all pieces of the rest."
  },
  {
   "property": "C114",
   "status": "partial",
   "theorems": [
    "C114_boast_refuted",
    "C114_accepted_partial",
    "C114_bound_partial"
   ],
   "note": "Refuted: decodeSlice and decodeMap make room for the announced size before reading (decoderV1.go:252, 265), so 5k bytes reserve k*(2^31-1) elements and then are refused; without that memory the process ends. Proved: an accepted message of n bytes needs at most n elements, any message at most 2^31-1 for each byte. Only slices and maps that are being read are counted."
  },
  {
   "property": "C115",
   "status": "partial",
   "theorems": [
    "C115_nested_refuted",
    "C115_openings_partial"
   ],
   "note": "Refuted: decode calls itself for every level and nothing limits it, so for every depth a value that the encoder itself writes overflows the stack. Proved: a message is decoded with a stack deeper than the number of its bytes that begin a list, map or structure."
  },
  {
   "property": "C116",
   "status": "partial",
   "theorems": [
    "C116_login_refuted",
    "C116_quiet_partial"
   ],
   "note": "Refuted: flush of the second encoder (encoderV2.go:82) shows the buffer, and the login is in it; for every user and password of at most 32000 bytes, with versions 2 to 4. Proved: with version 1 and at every other level encoding writes nothing. Other log lines show answers of the server and errors (C112 says what those reveal)."
  },
  {
   "property": "C117",
   "status": "partial",
   "theorems": [
    "C117_version_refuted",
    "C117_long_refuted",
    "C117_end_partial"
   ],
   "note": "Refuted: the encoder of version 1 shows nothing, and of a message not shorter than the chunk size only the rest after the chunks written so far is shown. Proved: what is shown is the end of the message, and all of it exactly if it is shorter than a chunk (working link, empty buffer)."
  },
  {
   "property": "C118",
   "status": "partial",
   "theorems": [
    "C118_no_server_refuted",
    "C118_scheme_partial",
    "C118_client_partial"
   ],
   "note": "Refuted of the server: bolt: followed by any text without / ? # is accepted with an empty address and no user. Proved of the scheme, for connections and for clients. C62 and C65 say which server, user and settings a string with // gives."
  },
  {
   "property": "C119",
   "status": "partial",
   "theorems": [
    "C119_impossible_refuted",
    "C119_options_partial"
   ],
   "note": "Refuted: ports above 65535, contradictory versions and negative timeouts are accepted, and unusable connection strings are refused with errors of other kinds. Proved: every option of a client is acceptable on its own, and without a connection string this, a host, a positive port and a user are exactly what it takes; other lists get a configuration error. C61 is about lists with both a connection string and a host."
  },
  {
   "property": "C120",
   "status": "partial",
   "theorems": [
    "C120_version_refuted"
   ],
   "note": "Refuted for all lists of options: adding a valid version option anywhere changes neither the error nor the connection string, the driver or the routing pool that are made. The handshake offers the same four versions to every server (C26)."
  },
  {
   "property": "C121",
   "status": "partial",
   "theorems": [
    "C121_echo_partial",
    "C121_uint_refuted"
   ],
   "note": "Proved, end to end at the level of bytes, for parameters that have a received form (C03) in requests that arrive whole, with a conforming server. Refuted of uint above MaxInt64."
  },
  {
   "property": "C122",
   "status": "partial",
   "theorems": [
    "C122_statements_partial",
    "C122_turns_partial",
    "C122_turns_finish_partial",
    "C122_begin_sees_partial",
    "C122_begin_refuted"
   ],
   "note": "Proved of statements, and of all calls if the callers take a mutex of their own around each (no deadlock either). Refuted of Begin: of two that look before either has its transaction, the second is refused by the server and its reset ends the first one's transaction; a statement of the first is then kept although its transaction is rolled back."
  },
  {
   "property": "C123",
   "status": "partial",
   "theorems": [
    "C123_opens_partial",
    "C123_rest_partial",
    "C123_stale_refuted"
   ],
   "note": "Proved of any goroutines that borrow, give back, stop and refresh. Refuted when a Start is among them: it refreshes without the mutex, so a Start that asked before a refresher left over from an earlier one may replace the addresses after it, open its connections at the old leader's address and leave that address in the pool."
  },
  {
   "property": "C124",
   "status": "partial",
   "theorems": [
    "C124_go_on_partial",
    "C124_ends_partial",
    "C124_served_partial",
    "C124_size_refuted",
    "C124_forgotten_refuted"
   ],
   "note": "Proved while no connection is found dead and each that is given back can be made idle. Refuted without that: a pool of size 0 is made without an error and its first Open waits for ever, blocking everyone else; and when a connection that is given back cannot be made idle and no other can be made at that moment, the goroutine that waits is forgotten although nobody holds a connection. What deaths do is C72."
  },
  {
   "property": "C125",
   "status": "partial",
   "theorems": [
    "C125_call_partial",
    "C125_open_partial",
    "C125_text_partial",
    "C125_heard",
    "C125_readable_partial",
    "C125_reset_partial",
    "C125_reset_refuted"
   ],
   "note": "Proved of all calls and openings on every network, with the texts of responses.go. Refuted for the part about the reset: consume passes the text of the reset's error as the format of the new error, so a % sign in it, as in a message of the server, garbles it (\"99%full\" becomes \"99%!f(MISSING)ull\"). Of Sprintf only two laws are used: text without % stays, and % with a letter after it is taken for a missing argument."
  },
  {
   "property": "C126",
   "status": "partial",
   "theorems": [
    "C126_whole_partial",
    "C126_escaped_refuted"
   ],
   "note": "Proved for clients made from host, port and basic authentication without TLS, user names and passwords of at most 65535 bytes without characters that need escaping, servers that accept the login, and statements whose request fits one chunk. Refuted for the rest: NewClient does not escape the user name and the password, so with other characters the client is made, and every Open fails. Client, connection string and wire are joined by hand: the theorem opens the connection with the user and password that the connection string yields; that the bytes get to the host dialled is the operating system's part."
  },
  {
   "property": "C127",
   "status": "partial",
   "theorems": [
    "C127_holder_partial",
    "C127_pool_partial",
    "C127_ready_partial",
    "C127_refuted"
   ],
   "note": "Proved if nobody begins or ends transactions by statement texts (which versions 1 and 2 of the protocol allow), nobody uses a connection after giving it back, and the holder keeps the discipline of C36 (no statement in a transaction in which a request failed, none through a closed transaction). Refuted otherwise: an earlier holder who executed the statement BEGIN leaves the next one in a transaction, whose statement is reported as executed and is not permanent."
  },
  {
   "property": "C128",
   "status": "partial",
   "theorems": [
    "C128_dials",
    "C128_string_partial",
    "C128_host_partial",
    "C128_escaped_refuted"
   ],
   "note": "What is dialled (C128_dials) is proved for all pools; that it is opened with the client's user name and password, if neither needs escaping, the text +routing occurs in the scheme only, and no TLS option is given (file names in a connection string may not need escaping either). Refuted otherwise: a password with escapes is decoded once for the server of the connection string and once more for the members, which are sent another password, cannot be dialled, or - if the password contains @ and / - are replaced by a host named in the password. One operation of the pool after the other; C123 follows the addresses through concurrent refreshes."
  },
  {
   "property": "C129",
   "status": "partial",
   "theorems": [
    "C129_refuted",
    "C129_aside",
    "C129_first_partial",
    "C129_valid_partial",
    "C129_accepted_partial",
    "C129_bound_partial"
   ],
   "note": "Refuted: the second codec prints every local time it reads (decoderV2.go:383), and 0 for one that is not a number. Proved: the first codec prints nothing; of a valid message the local times in it are printed, in order, and nothing else (date-times with a zone name and durations are not in the specification of valid messages); of any accepted message all its local times are printed; of any bytes at most one line for each byte 't'; and printing changes nothing of what is decoded."
  },
  {
   "property": "C130",
   "status": "partial",
   "theorems": [
    "C130_refuted",
    "C130_returns_partial",
    "C130_tree_partial",
    "C130_sent",
    "C130_endless",
    "C130_panics_partial",
    "C130_exactly_when",
    "C130_any_link",
    "C130_broken_link"
   ],
   "note": "Refuted: a nil pointer to a structure panics before anything is written, and a slice that contains itself is followed until the stack is exhausted, with a whole chunk sent for every chunk size of levels. Proved: whenever following references ends and meets no such pointer, Encode returns; a shared value is encoded as the tree it stands for; nil is returned only for trees, whose encoding is then what was written; endless values are never reported as sent; panics come from nil pointers only. Exactly when: on a working link the ending (nil, which error, panic, or no stack is enough) is decided by following the references left to right to the first thing that cannot be sent, so self-containing values refused before their cycle return that error; on a link that carries only so many more bytes every value has an end. Leaves are assumed to be values the Go types allow."
  },
  {
   "property": "C131",
   "status": "proved",
   "theorems": [
    "C131_life",
    "C131_mark",
    "C131_untouched"
   ],
   "note": "On every network. C131_life: the events of a connection's whole life are one dial, traffic, and, exactly if the connection is marked closed, one closing of the socket as the last event. C131_mark: the mark agrees with the state of the socket. C131_untouched: calls on a closed connection do not touch the network. That Close can fail to close is C39; that a failed open leaves the socket open is C75."
  },
  {
   "property": "C132",
   "status": "partial",
   "theorems": [
    "C132_refuted",
    "C132_routing_refuted",
    "C132_last_partial",
    "C132_pool_partial",
    "C132_unset_partial",
    "C132_routing_partial",
    "C132_no_patience"
   ],
   "note": "Refuted for both pools: MakeIdle only rolls back, so a timeout of zero set by one holder makes every statement of the next fail at once with driver.ErrBadConn (C132_no_patience: nothing is sent and the connection stays open, so it is lent again and again). Proved: on any network the settings are exactly what SetTimeout and SetChunkSize last made them, in any life of calls; in a driver pool what the calls of all holders together made of the first settings, the pool changing none; unchanged by anything a routing pool does; and as new if nobody set any. Calls do not overlap with SetTimeout in this model."
  },
  {
   "property": "C133",
   "status": "proved",
   "theorems": [
    "C133_host",
    "C133_host_session",
    "C133_string"
   ],
   "note": "Conforming servers at addresses, links that lose nothing; one operation of the pool or call of a borrower at a time, calls may be made on a connection after it was given back. A request arrives whole or is refused before a byte is sent. With characters to escape the claim fails, see C128_escaped_refuted. Versions 1 and 2: transaction control statements are not executed as statements (ordinary)."
  },
  {
   "property": "C134",
   "status": "proved",
   "theorems": [
    "C134_lends_rested"
   ],
   "note": "The condition that C81_refuted shows to be needed, shown to be enough. Conforming servers, links that lose nothing; one operation or call at a time. The connections the pool asks for the members are asked as the code asks (asks_overview)."
  },
  {
   "property": "C135",
   "status": "proved",
   "theorems": [
    "C135_left_alone"
   ],
   "note": "For every cluster that gives connections and names not given before (fresh), whatever the borrowers do to the world with what they hold."
  },
  {
   "property": "C136",
   "status": "proved",
   "theorems": [
    "C136_holder",
    "C136_pool"
   ],
   "note": "The routing counterpart of C127. Conforming servers, links that lose nothing; one operation or call at a time. Without the ended transactions it is false (C81_refuted). The statements that ask new connections for the members are excluded by naming connections opened before the operation."
  },
  {
   "property": "C137",
   "status": "partial",
   "theorems": [
    "C137_accounted_partial",
    "C137_sessions_partial",
    "C137_stopped_refuted",
    "C137_wavering_refuted"
   ],
   "note": "False as stated: Stop (405-427) forgets the connections that are idle without closing them (C137_stopped_refuted), and internalBorrow drops a connection if ValidateOpen first calls it closed and then, inside removeConn, open (C137_wavering_refuted). C137_accounted_partial shows that these are the only two ways; C137_sessions_partial shows that over sessions with conforming servers the second does not happen, so that only stopping loses connections. Missing: nothing but the false part. One operation at a time; dialled connections are new (fresh)."
  },
  {
   "property": "C138",
   "status": "partial",
   "theorems": [
    "C138_size_partial",
    "C138_refuted",
    "C138_unbounded_refuted"
   ],
   "note": "False as stated: ActivateObject (62-88) replaces a connection it finds dead without closing it, and DestroyObject (24-43) closes only connections it finds alive, so that over conforming sessions a pool of size one has two connections open, neither asked to close (C138_refuted), and after as many failures as one likes any number (C138_unbounded_refuted). C138_size_partial shows that connections found dead are the only excess: those neither asked to close nor found dead never outnumber the size, for every sequence of requests. Missing: nothing but the false part. Connections are told apart by the names the network gives them."
  },
  {
   "property": "C139",
   "status": "partial",
   "theorems": [
    "C139_size_partial",
    "C139_sessions_partial",
    "C139_open_partial",
    "C139_starts_partial",
    "C139_refuted",
    "C139_grows_refuted"
   ],
   "note": "False as stated: Stop (405-427) leaves open connections that are alive, and a pool that is started again opens as many anew, so that over conforming sessions a pool of two has four open (C139_refuted). C139_open_partial: true of every sequence of operations in which the pool is not started again after being stopped, for every cluster, whatever ValidateOpen says, whatever is done to connections in between; nobody has to give back what they hold. C139_starts_partial: with restarts the bound is the size for each Start. C139_grows_refuted: that bound is attained, a pool of two started and stopped k times has 2k connections open, so no bound independent of the number of Starts exists. C139_size_partial and C139_sessions_partial are the earlier weaker forms. Missing: nothing but the false part. One operation at a time (C141 has overlapping goroutines); sizes below two are excluded."
  },
  {
   "property": "C140",
   "status": "partial",
   "theorems": [
    "C140_size_partial",
    "C140_never_more_partial",
    "C140_starts_partial",
    "C140_held_partial",
    "C140_refuted"
   ],
   "note": "False as stated: Start (360-403) looks whether the pool runs and says that it does in two steps and takes no mutex, so that a pool of four started by two goroutines at once has eight connections (C140_refuted). C140_size_partial: true if no Start overlaps and the pool was not started again after a Stop before: any number of goroutines that borrow, use, give back (also what was never lent), stop and refresh, with any interleaving. C140_never_more_partial: then from any pool whatever the connections do not become more. C140_starts_partial: k overlapping Starts add at most k times the size; so a new pool that one goroutine starts while others use, stop and refresh it stays within its size. C140_held_partial: the same counted by what goroutines hold instead of by the pool's map. Missing: nothing but the false part. The steps are those of PoolRace.v (C58, C103, C105 show that they agree with Pool.v when they are not interrupted)."
  },
  {
   "property": "C141",
   "status": "partial",
   "theorems": [
    "C141_size_partial",
    "C141_starts_partial",
    "C141_refuted"
   ],
   "note": "Proved if the pool is not started again and no goroutine starts it meanwhile: n once all have ended, n+1 before (the one more is the connection that asks for the overview, or the one that replaces another). With starts the bound is n for each Start that was made (C141_starts_partial). False of two goroutines that start the pool at once: both see that it does not run (C141_refuted)."
  },
  {
   "property": "C142",
   "status": "partial",
   "theorems": [
    "C142_shares_partial",
    "C142_starts_partial",
    "C142_refuted"
   ],
   "note": "False as stated: two goroutines that start a pool of four at once make it have four connections of each kind (C142_refuted); one at a time, a pool that is started again exceeds its shares too (C53_above_refuted). C142_shares_partial: true if the pool is not started again and nobody starts it meanwhile, for all interleavings of goroutines that borrow, use, give back, stop and refresh; idle connections are in the queue of their kind. C142_starts_partial: otherwise each Start adds at most one share. Missing: nothing but the false part."
  },
  {
   "property": "C143",
   "status": "partial",
   "theorems": [
    "C143_accounted_partial",
    "C143_firm_partial",
    "C143_moment_partial",
    "C143_wavering_refuted",
    "C143_start_refuted"
   ],
   "note": "False as stated: Stop forgets the idle connections that are open (C137_stopped_refuted), a borrower forgets a connection that ValidateOpen calls closed and then open (C137_wavering_refuted; with goroutines other steps may come between, C143_wavering_refuted), and a Start that overlaps a round of the refresher may lose all it has opened (C143_start_refuted). C143_accounted_partial: true but for these, for any number of goroutines that borrow, use, give back and refresh, also of connections they do not hold, in any order of their steps. C143_firm_partial: if what ValidateOpen has called closed stays closed, only what Stop has lost is missing. C143_moment_partial: while they run, no more connections are nowhere than goroutines still have something to do. Missing: nothing but the false part and goroutines that stop the pool."
  }
 ]
}
