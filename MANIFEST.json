{
 "claims": [
  {
   "property": "C01",
   "status": "proved",
   "theorems": [
    "C01_membership_relation"
   ],
   "note": "all histories, all iteration orders"
  },
  {
   "property": "C02",
   "status": "proved",
   "theorems": [
    "C02_events_replay",
    "C02_events_replay_needs_delete_result_refuted"
   ],
   "note": "assumes types.Set.Delete (dependency) reports presence; the refuted theorem shows the assumption is needed"
  },
  {
   "property": "C03",
   "status": "proved",
   "theorems": [
    "C03_broadcast_targets",
    "C03_fetch_sockets",
    "C03_all_sockets",
    "C03_reachable",
    "C03_histories"
   ],
   "note": "For every well-formed state, for every state reached by a history of calls, and as a statement about whole histories: each socket received exactly the broadcasts that targeted it."
  },
  {
   "property": "C04",
   "status": "proved",
   "theorems": [
    "C04_at_most_once"
   ],
   "note": ""
  },
  {
   "property": "C05",
   "status": "proved",
   "theorems": [
    "C05_sockets_join",
    "C05_sockets_leave",
    "C05_disconnect_sockets"
   ],
   "note": ""
  },
  {
   "property": "C06",
   "status": "partial",
   "theorems": [
    "C06_sender_exclusion_partial",
    "C06_sender_left_own_room_refuted",
    "C06_other_member_missed_refuted"
   ],
   "note": "Exact set of receivers proved for every chain, history and state. The unconditional claim is false: exclusion is by the room named by the sender's id, so a sender that left that room receives its own broadcast and another socket that joined it is missed."
  },
  {
   "property": "C07",
   "status": "proved",
   "theorems": [
    "C07_operators_persistent",
    "C07_chain_target",
    "C07_chain_order_independent",
    "C07_emits_to_target"
   ],
   "note": "Pointer-level model: persistence under any later calls; the chain law; order independence; what Emit passes to the adapter."
  },
  {
   "property": "C08",
   "status": "proved",
   "theorems": [
    "C08_reserved_rejected",
    "C08_no_effect"
   ],
   "note": ""
  },
  {
   "property": "C09",
   "status": "proved",
   "theorems": [
    "C09_next_emission",
    "C09_next_timeout",
    "C09_next_operator",
    "C09_rejected_emission_refuted"
   ],
   "note": "Emission = accepted emission. Finding: an emission rejected for a reserved name does not forget the modifiers. Sequential calls on the socket."
  },
  {
   "property": "C10",
   "status": "partial",
   "theorems": [
    "C10_answered_once_partial",
    "C10_calls_bounded",
    "C10_timeout_answered",
    "C10_duplicate_reply_refuted",
    "C10_reply_and_timeout_refuted",
    "C10_early_timer_refuted"
   ],
   "note": "Exact for every history of non-overlapping handlers; for all goroutine schedules at most one call per reply received plus one timeout, and at least one call with a timeout. 'At most once' for all schedules is false: three witnesses."
  },
  {
   "property": "C11",
   "status": "proved",
   "theorems": [
    "C11_routing",
    "C11_ids_distinct",
    "C11_unknown_ignored"
   ],
   "note": "All goroutine schedules, fewer than 2^64 emissions."
  },
  {
   "property": "C12",
   "status": "proved",
   "theorems": [
    "C12_answered_once"
   ],
   "note": "All goroutine schedules, sync.Once modelled at the level of its memory operations."
  },
  {
   "property": "C13",
   "status": "partial",
   "theorems": [
    "C13_first_outcome_partial",
    "C13_complete_when_ok",
    "C13_timeout_once",
    "C13_two_arguments_refuted",
    "C13_no_argument_refuted",
    "C13_called_twice_refuted",
    "C13_concurrent_replies_refuted",
    "C13_timer_and_result_refuted"
   ],
   "note": "Proved for replies of exactly one argument (exact outcome for non-overlapping handlers; safety for all schedules). False for other replies and, as 'at most once', for overlapping handlers: witnesses."
  },
  {
   "property": "C14",
   "status": "partial",
   "theorems": [
    "C14_array_reply_partial",
    "C14_plain_reply_refuted",
    "C14_gone_client_refuted",
    "C14_array_unwrapped_refuted"
   ],
   "note": "Only replies that are exactly one array are delivered (as its elements); every other reply, and a client that is gone, crash the server."
  },
  {
   "property": "C15",
   "status": "proved",
   "theorems": [
    "C15_frames_contiguous"
   ],
   "note": "All schedules of any number of writers through _packet and WriteToEngine, the lock taken step by step."
  },
  {
   "property": "C16",
   "status": "proved",
   "theorems": [
    "C16_only_volatile_dropped",
    "C16_order"
   ],
   "note": "All schedules, transport state changing at any time; order for non-overlapping calls."
  },
  {
   "property": "C17",
   "status": "proved",
   "theorems": [
    "C17_gate",
    "C17_once",
    "C17_closed",
    "C17_next_twice_refuted"
   ],
   "note": "All schedules and arbitrary middleware behaviour. Middlewares = those registered when the attempt starts; recovered sessions with SkipMiddlewares excepted. The witness shows that calling next twice (outside the claim's hypothesis) both refuses and accepts."
  },
  {
   "property": "C18",
   "status": "proved",
   "theorems": [
    "C18_gate",
    "C18_once",
    "C18_closed",
    "C18_catch_all_not_gated",
    "C18_handler_after_disconnect_refuted"
   ],
   "note": "All schedules and arbitrary middleware behaviour; handlers = listeners of the event. Findings: catch-all listeners are not gated; an event accepted before the disconnection can be handled after it."
  },
  {
   "property": "C19",
   "status": "proved",
   "theorems": [
    "C19_no_trace",
    "C19_same_id_refuted"
   ],
   "note": "For every history and later history. Rooms go by id, so that the room set stays empty later is stated for ids no other open socket uses; C19_same_id_refuted shows what happens to the other socket otherwise."
  },
  {
   "property": "C20",
   "status": "proved",
   "theorems": [
    "C20_packet",
    "C20_connect",
    "C20_connection",
    "C20_life",
    "C20_admitted"
   ],
   "note": ""
  },
  {
   "property": "C21",
   "status": "proved",
   "theorems": [
    "C21_disconnecting",
    "C21_rooms",
    "C21_disconnect",
    "C21_once"
   ],
   "note": "Atomic granularity (one call of onclose at a time); interleavings of the individual operations are C51."
  },
  {
   "property": "C22",
   "status": "partial",
   "theorems": [
    "C22_inert_partial",
    "C22_catch_all_refuted",
    "C22_emit_refuted"
   ],
   "note": "Proved except: catch-all listeners (and ack callbacks) still run for packets received before the disconnection, and Emit still writes; both refuted."
  },
  {
   "property": "C23",
   "status": "partial",
   "theorems": [
    "C23_transport_partial",
    "C23_disconnect_partial",
    "C23_same_id_refuted"
   ],
   "note": "Proved for environments without duplicated socket ids; a protocol 3 client that asks twice for a namespace leaves a connected socket behind (refuted)."
  },
  {
   "property": "C24",
   "status": "proved",
   "theorems": [
    "C24_isolated",
    "C24_broadcast",
    "C24_fetch"
   ],
   "note": ""
  },
  {
   "property": "C25",
   "status": "proved",
   "theorems": [
    "C25_processed",
    "C25_ids",
    "C25_violation"
   ],
   "note": ""
  },
  {
   "property": "C26",
   "status": "partial",
   "theorems": [
    "C26_one_partial",
    "C26_two_refuted"
   ],
   "note": "False in general: two CONNECT packets while the middlewares run give two sockets (refuted); proved if the client has no second attempt pending."
  },
  {
   "property": "C27",
   "status": "proved",
   "theorems": [
    "C27_recovered_iff",
    "C27_idle_client_refuted"
   ],
   "note": "All histories with a clock that does not go back, options with both sets (what the API passes; nil options crash, see C33). 'Known' = no cleanup ran later than the duration after the offset packet; the witness shows that an idle client can therefore miss recovery."
  },
  {
   "property": "C28",
   "status": "proved",
   "theorems": [
    "C28_replay_exact"
   ],
   "note": "Distinct packet identifiers (utils.YeastDate). The rooms are those at disconnection, see C28_joined_later."
  },
  {
   "property": "C29",
   "status": "proved",
   "theorems": [
    "C29_sessions",
    "C29_packets",
    "C29_outcome_unchanged",
    "C29_clock_back_refuted"
   ],
   "note": ""
  },
  {
   "property": "C30",
   "status": "partial",
   "theorems": [
    "C30_recovered_state",
    "C30_rooms_after_connect",
    "C30_unique_partial",
    "C30_two_sockets_refuted",
    "C30_own_room_refuted"
   ],
   "note": "All histories with clients that reconnect only after their socket was closed. Uniqueness of ids is false for a client that restores a session twice; the room of its own id comes back even if left."
  },
  {
   "property": "C31",
   "status": "partial",
   "theorems": [
    "C31_no_loss_partial",
    "C31_window_refuted"
   ],
   "note": "Exact list received by the new connection, for every history around one recovered reconnection. Packets broadcast between the restoration of the session and the admission of the socket are lost (witness)."
  },
  {
   "property": "C32",
   "status": "proved",
   "theorems": [
    "C32_saved_iff",
    "C32_explicit_never",
    "C32_only_on_close"
   ],
   "note": "All histories, all reasons, both configurations."
  },
  {
   "property": "C33",
   "status": "proved",
   "theorems": [
    "C33_same_rule",
    "C33_nil_options_refuted"
   ],
   "note": "For the options that the API passes; with nil options a stored packet crashes later recoveries."
  },
  {
   "property": "C34",
   "status": "partial",
   "theorems": [
    "C34_declared_partial",
    "C34_socket_partial",
    "C34_denied",
    "C34_admitted_partial",
    "C34_late_answer_refuted",
    "C34_hidden_parent_refuted",
    "C34_no_slash_refuted"
   ],
   "note": "Proved for names with a leading slash; refuted: late answers give CONNECT_ERROR and a connection, a silent parent hides the others, a name without slash enters an undeclared namespace."
  },
  {
   "property": "C35",
   "status": "partial",
   "theorems": [
    "C35_known",
    "C35_new_partial",
    "C35_once",
    "C35_handler_refuted"
   ],
   "note": "Everything but the registration of the handler when a regular expression creates the namespace (refuted)."
  },
  {
   "property": "C36",
   "status": "partial",
   "theorems": [
    "C36_never",
    "C36_removed",
    "C36_exact_partial",
    "C36_connected_partial",
    "C36_orphan_refuted",
    "C36_unregistered_refuted"
   ],
   "note": "The exact characterisation holds if no connection attempt outlives its namespace; otherwise refuted."
  },
  {
   "property": "C37",
   "status": "partial",
   "theorems": [
    "C37_emit",
    "C37_broadcast_partial",
    "C37_recovery_refuted"
   ],
   "note": "Emit proved; To/Except/... proved without connection state recovery and refuted with it."
  },
  {
   "property": "C38",
   "status": "proved",
   "theorems": [
    "C38_exactly_once",
    "C38_local",
    "C38_no_relay",
    "C38_publish_error_refuted"
   ],
   "note": "Any number of servers, any delivery order, with or without echo to the sender. Finding: if the transport fails to publish, the sockets of the emitting server are not reached either."
  },
  {
   "property": "C39",
   "status": "proved",
   "theorems": [
    "C39_options_survive",
    "C39_parts"
   ],
   "note": ""
  },
  {
   "property": "C40",
   "status": "partial",
   "theorems": [
    "C40_outcome_partial",
    "C40_alone",
    "C40_overlapping_complete",
    "C40_overlapping_called",
    "C40_overlapping_told",
    "C40_overlapping_stopped",
    "C40_overlapping_over",
    "C40_called_twice_refuted",
    "C40_error_and_result_refuted",
    "C40_duplicates_refuted",
    "C40_base_refuted"
   ],
   "note": "Adapter with heartbeat: exact outcome for every history of atomic handlers. Overlapping handlers: complete and at least once under every schedule, but at most once is false. Without heartbeat the adapter never asks other servers."
  },
  {
   "property": "C41",
   "status": "proved",
   "theorems": [
    "C41_server_count",
    "C41_members",
    "C41_regular",
    "C41_silent",
    "C41_closed",
    "C41_never_self"
   ],
   "note": ""
  },
  {
   "property": "C42",
   "status": "proved",
   "theorems": [
    "C42_caller",
    "C42_sent_once",
    "C42_handled"
   ],
   "note": ""
  },
  {
   "property": "C43",
   "status": "partial",
   "theorems": [
    "C43_base",
    "C43_acks_partial",
    "C43_dropped_refuted"
   ],
   "note": "True of the adapter without heartbeat and of acknowledgements; answers to requests of the adapter with heartbeat are dropped when delivered through OnMessage."
  },
  {
   "property": "C44",
   "status": "partial",
   "theorems": [
    "C44_at_most_once",
    "C44_exactly_once",
    "C44_disconnected",
    "C44_order_partial",
    "C44_order_refuted"
   ],
   "note": "Exactly once under every schedule. The order of reception is not kept in general (a goroutine per packet); proved when packets do not overlap."
  },
  {
   "property": "C45",
   "status": "partial",
   "theorems": [
    "C45_shutdown_partial",
    "C45_orphan_refuted"
   ],
   "note": "Proved if no connection attempt outlives its namespace; otherwise refuted."
  },
  {
   "property": "C46",
   "status": "partial",
   "theorems": [
    "C46_order",
    "C46_only_events",
    "C46_same_code_refuted"
   ],
   "note": "True if distinct listeners have distinct code; OffAny compares code addresses, so closures of one function literal are confused."
  },
  {
   "property": "C47",
   "status": "partial",
   "theorems": [
    "C47_methods",
    "C47_not_modified",
    "C47_inside_partial",
    "C47_bundle",
    "C47_served",
    "C47_inside_refuted"
   ],
   "note": "Everything opened is client-dist or an entry of it, except that a path ending in '..' after a question mark opens the parent directory."
  },
  {
   "property": "C48",
   "status": "partial",
   "theorems": [
    "C48_assign",
    "C48_assign_twice",
    "C48_cluster_assign",
    "C48_defaults",
    "C48_recovery_defaults_partial",
    "C48_recovery_defaults_refuted",
    "C48_cluster_defaults"
   ],
   "note": "The options inherited from engine.io are outside the repository. Defaults of the recovery options are not applied if an adapter is given."
  },
  {
   "property": "C49",
   "status": "proved",
   "theorems": [
    "C49_attempt",
    "C49_recovered",
    "C49_fresh",
    "C49_query_ignored"
   ],
   "note": ""
  },
  {
   "property": "C50",
   "status": "partial",
   "theorems": [
    "C50_join_partial",
    "C50_stays",
    "C50_leave",
    "C50_sound",
    "C50_join_lost_refuted",
    "C50_stranger_refuted",
    "C50_views_refuted"
   ],
   "note": "A join concurrent with the removal of an empty room is lost. Proved under every schedule when the room keeps a member or nobody leaves it; leaving and staying are proved without condition."
  },
  {
   "property": "C51",
   "status": "partial",
   "theorems": [
    "C51_gone_partial",
    "C51_call_partial",
    "C51_count_partial",
    "C51_said",
    "C51_moves",
    "C51_alone",
    "C51_late",
    "C51_twice_refuted",
    "C51_join_partial",
    "C51_join_refuted",
    "C51_refused",
    "C51_told",
    "C51_admitted",
    "C51_rooms",
    "C51_left",
    "C51_zombie_refuted",
    "C51_order_refuted"
   ],
   "note": "For every interleaving: a settled socket closed by any number of calls ends out of every table and out of every room no concurrent Join names; each call emits disconnecting then disconnect at most once, and a call that starts after the disconnect event emits nothing; after canJoin is cleared only Joins already past their check add rooms; refused or late admissions never connect. The full statement is false: two closers can both emit disconnect, a concurrent Join leaks a membership, and a transport closing in the middle of an admission leaves a connected socket (refuted with schedules)."
  },
  {
   "property": "C52",
   "status": "proved",
   "theorems": [
    "C52_expires",
    "C52_joined"
   ],
   "note": ""
  },
  {
   "property": "C53",
   "status": "partial",
   "theorems": [
    "C53_error_partial",
    "C53_after",
    "C53_same_id_refuted"
   ],
   "note": "Proved for environments without duplicated socket ids; otherwise the sockets table of the client hides one of the two sockets (refuted)."
  },
  {
   "property": "C54",
   "status": "proved",
   "theorems": [
    "C54_known",
    "C54_count",
    "C54_forgotten",
    "C54_closed",
    "C54_no_init_refuted",
    "C54_closed_refuted",
    "C54_zombie_refuted"
   ],
   "note": "Timed model of any number of servers. The hypotheses are needed: nothing in the repository calls Init, and without it live servers that only broadcast are forgotten (refuted); a closed adapter still answers INITIAL_HEARTBEAT and is counted again, for ever if Refresh re-arms a stopped timer (refuted)."
  },
  {
   "property": "C55",
   "status": "partial",
   "theorems": [
    "C55_targets",
    "C55_once",
    "C55_counts",
    "C55_answers",
    "C55_source",
    "C55_expired",
    "C55_ok_complete",
    "C55_complete",
    "C55_local_refuted",
    "C55_unknown_server_refuted"
   ],
   "note": "Any number of servers, messages in any order, answers at any time. The callback part holds when ServerCount() is the number of servers and the broadcast is neither Local nor failed to be published: a Local broadcast in a cluster never completes, and with a smaller ServerCount() the callback misses sockets (refuted). Answers of other than one argument are excluded as in C13."
  },
  {
   "property": "C56",
   "status": "proved",
   "theorems": [
    "C56_fetch",
    "C56_snapshot",
    "C56_fetch_timeout",
    "C56_fetch_complete",
    "C56_fetch_alone",
    "C56_fetch_once",
    "C56_stranger_refuted",
    "C56_emit",
    "C56_emit_timeout",
    "C56_emit_complete",
    "C56_emit_alone",
    "C56_emit_once",
    "C56_event",
    "C56_event_only"
   ],
   "note": "Any number of servers of the heartbeat adapter, messages in any order, any heartbeats, farewells, timers and changes of sockets in between. The others are the servers known at the call: one that has not been heard of can be missing from the result (refuted witness)."
  },
  {
   "property": "C57",
   "status": "proved",
   "theorems": [
    "C57_at_most_once",
    "C57_reached",
    "C57_excluded",
    "C57_possible",
    "C57_alone",
    "C57_atomic",
    "C57_listing",
    "C57_moving_refuted",
    "C57_never_matching_refuted",
    "C57_lost_join_refuted"
   ],
   "note": "Every interleaving, any number of concurrent calls. Stronger readings are false (refuted witnesses): a socket that moves between two targeted rooms can be missed, and one that matches at no moment can be reached."
  },
  {
   "property": "C58",
   "status": "proved",
   "theorems": [
    "C58_emit",
    "C58_stays",
    "C58_at_most_once",
    "C58_bulk",
    "C58_bulk_handled",
    "C58_remote",
    "C58_socket",
    "C58_left_own_refuted",
    "C58_other_member_refuted",
    "C58_moved_twice_refuted",
    "C58_moved_missed_refuted",
    "C58_own_server_refuted"
   ],
   "note": "The provisos are needed (refuted witnesses): a socket that left its own room is not reached, another socket that joined it is; a client that comes back on another server under the same id gets the packet twice or never; and when publishing fails even a socket of the emitting server gets nothing."
  },
  {
   "property": "C59",
   "status": "proved",
   "theorems": [
    "C59_packets",
    "C59_handed",
    "C59_sound",
    "C59_complete",
    "C59_no_loss",
    "C59_saved",
    "C59_kept",
    "C59_skipped_refuted",
    "C59_panic_refuted",
    "C59_deleted_refuted",
    "C59_deleted_by_restore_refuted",
    "C59_order_refuted",
    "C59_duplicate_refuted",
    "C59_unexpired_refuted"
   ],
   "note": "Every interleaving. The provisos are needed (refuted witnesses): a cleanup during a restoration makes it skip packets or panic; a session saved while an older one is being deleted is deleted; overlapping broadcasts are sent in another order than stored, so a packet is lost or replayed twice; the times in the store need not increase, so the cleanup can remove unexpired packets."
  },
  {
   "property": "C60",
   "status": "proved",
   "theorems": [
    "C60_given",
    "C60_denied",
    "C60_table",
    "C60_announced",
    "C60_sockets",
    "C60_parent",
    "C60_once",
    "C60_stays",
    "C60_one_refuted",
    "C60_together_refuted",
    "C60_registered_refuted",
    "C60_open_refuted",
    "C60_removes_refuted",
    "C60_parent_refuted"
   ],
   "note": "Every interleaving. The provisos are needed (refuted witnesses): overlapping creations give one name two namespaces, and split the clients of one name; a client that enters while the namespace is cleaned up is in an unregistered namespace with a closed adapter; a clean-up can unregister a newer namespace of the same name; a client that connects during the clean-up gets a plain namespace without parent. Middlewares are one decision per client; handlers are not modelled here."
  },
  {
   "property": "C61",
   "status": "proved",
   "theorems": [
    "C61_rooms",
    "C61_rooms_end",
    "C61_store",
    "C61_restore",
    "C61_store_end"
   ],
   "note": "Agreement of the interleaving models (C50, C59) with the sequential ones (C01-C05, C27-C33): the same functions modelled at two granularities. A cleanup must visit every key of the map (hypothesis visits_all). The room events are only in the sequential model."
  },
  {
   "property": "C62",
   "status": "proved",
   "theorems": [
    "C62_handled",
    "C62_known",
    "C62_window",
    "C62_polite_refuted",
    "C62_crossing_refuted",
    "C62_once",
    "C62_first",
    "C62_event_first_refuted",
    "C62_goodbye_first_refuted",
    "C62_reached",
    "C62_last",
    "C62_last_refuted"
   ],
   "note": "Every interleaving. The provisos are needed (refuted witnesses): a packet sent at once after CONNECT, or one that crosses a DISCONNECT of the server, makes the server close the whole connection; a broadcast or a disconnection during the admission is written before CONNECT; a broadcast can follow DISCONNECT. The socket is alone on its connection; its id is not reused; the admission is not refused by a middleware (C51)."
  },
  {
   "property": "C63",
   "status": "proved",
   "theorems": [
    "C63_blocks",
    "C63_delivered",
    "C63_program_order",
    "C63_order",
    "C63_results",
    "C63_progress",
    "C63_completes",
    "C63_bounded",
    "C63_opposite_refuted",
    "C63_reaction_refuted"
   ],
   "note": "Every schedule of any programs. The two refutations are the negative part of the statement."
  },
  {
   "property": "C64",
   "status": "proved",
   "theorems": [
    "C64_caller",
    "C64_sent",
    "C64_stored",
    "C64_stored_as",
    "C64_spare_refuted",
    "C64_spare_sent_refuted",
    "C64_late_refuted",
    "C64_listener_refuted"
   ],
   "note": "Every history. The provisos (no spare room, no writing listener) are needed: refuted witnesses."
  },
  {
   "property": "C65",
   "status": "proved",
   "theorems": [
    "C65_exact",
    "C65_source",
    "C65_source_timeout",
    "C65_overlap",
    "C65_kept",
    "C65_kept_timeout",
    "C65_sequential",
    "C65_turns",
    "C65_stolen_refuted",
    "C65_doubled_refuted",
    "C65_lost_refuted",
    "C65_timeout_refuted"
   ],
   "note": "Every schedule of any programs. The refutations are the negative part of the statement."
  },
  {
   "property": "C66",
   "status": "proved",
   "theorems": [
    "C66_state",
    "C66_effects",
    "C66_orders",
    "C66_orders_effects",
    "C66_two_refuted",
    "C66_same_id_refuted"
   ],
   "note": "Every history of the atomic model (System). The provisos (env_ok, polite) are needed: refuted witnesses. Effects within one operation are compared up to their order."
  },
  {
   "property": "C67",
   "status": "proved",
   "theorems": [
    "C67_turns",
    "C67_end",
    "C67_heir_refuted"
   ],
   "note": "LifeConc against System, through the reference server of C66. The proviso that no other socket has taken over the id is needed: refuted witness. What is heard within one call is compared up to order."
  },
  {
   "property": "C68",
   "status": "proved",
   "theorems": [
    "C68_split",
    "C68_received",
    "C68_home",
    "C68_missed",
    "C68_everybody_refuted"
   ],
   "note": "Atomic operations; ids of sockets are not used twice. Each adapter is compared with the namespace of AdapterRun on its part of the history."
  },
  {
   "property": "C69",
   "status": "proved",
   "theorems": [
    "C69_children",
    "C69_received",
    "C69_bulk",
    "C69_queries",
    "C69_ack",
    "C69_ack_times",
    "C69_ack_never",
    "C69_via_ack",
    "C69_once_refuted",
    "C69_join_refuted"
   ],
   "note": "Atomic operations; replies come after the broadcast returned. C69_ack_times for replies of one argument (C13 says what the others do)."
  },
  {
   "property": "C70",
   "status": "partial",
   "theorems": [
    "C70_others",
    "C70_method",
    "C70_status",
    "C70_body_partial",
    "C70_headers",
    "C70_coding",
    "C70_acceptable_partial",
    "C70_confirmed_partial",
    "C70_acceptable_refuted",
    "C70_format_refuted",
    "C70_whole_refuted",
    "C70_variants_refuted",
    "C70_confirmed_refuted"
   ],
   "note": "The code does not respect q=0, the format of deflate, or the validity of entity tags across codings and after a 404 (refuted). Compressors and files are oracles; the CORS middleware is not modelled."
  },
  {
   "property": "C71",
   "status": "proved",
   "theorems": [
    "C71_client",
    "C71_nsp",
    "C71_tables",
    "C71_waiting_refuted"
   ],
   "note": "Atomic operations of System. The premise that no middleware is running is needed: refuted witness."
  },
  {
   "property": "C72",
   "status": "proved",
   "theorems": [
    "C72_turns",
    "C72_histories"
   ],
   "note": "Names sent by clients begin with a slash, as assumed by NspConc. Clients denied by the server have no goroutine in the agreeing run."
  },
  {
   "property": "C73",
   "status": "partial",
   "theorems": [
    "C73_only",
    "C73_alone",
    "C73_announced",
    "C73_stays",
    "C73_race_refuted",
    "C73_late_refuted",
    "C73_early_refuted"
   ],
   "note": "That a client which is admitted before it is hung up is not hung up any more is false (three refuted schedules); C73_announced and C73_stays give the conditions under which it holds. Time is not modelled: the timer fires at any time after it was set."
  },
  {
   "property": "C74",
   "status": "proved",
   "theorems": [
    "C74_one",
    "C74_closed",
    "C74_all",
    "C74_call",
    "C74_refused",
    "C74_admitted",
    "C74_rooms",
    "C74_left",
    "C74_told",
    "C74_stays",
    "C74_alone",
    "C74_new",
    "C74_all_refuted"
   ],
   "note": "C74_all_refuted is the last sentence of the statement. Ids are taken to be unique on the connection."
  },
  {
   "property": "C75",
   "status": "proved",
   "theorems": [
    "C75_engines",
    "C75_own",
    "C75_once",
    "C75_close",
    "C75_closed",
    "C75_close_refuted",
    "C75_twice_refuted"
   ],
   "note": "C75_close_refuted is the last sentence of the statement. What engine.Attach and HttpServer.Close do is trusted (DESIGN.md)."
  },
  {
   "property": "C76",
   "status": "proved",
   "theorems": [
    "C76_exact",
    "C76_called",
    "C76_source",
    "C76_silent",
    "C76_turns",
    "C76_removed_refuted",
    "C76_order_refuted"
   ],
   "note": "C76_exact supposes, as C46, that distinct listeners have distinct code; the two refutations are the last sentence of the statement."
  },
  {
   "property": "C77",
   "status": "proved",
   "theorems": [
    "C77_received",
    "C77_dispatched",
    "C77_verdict",
    "C77_quiet",
    "C77_emit",
    "C77_stored",
    "C77_emit_refuted",
    "C77_replay_refuted"
   ],
   "note": "The two refutations show that clients can be sent something else than was emitted, as the statement says. Writes to nested values and writes made later by goroutines of a listener are not modelled."
  }
 ]
}