c("C01","proved",["utf8_checker_decides_rfc3629"])
c("C02","proved",["utf8_checker_chunking_independent","utf8_checker_chunked_decides_rfc3629","utf8_checker_reject_is_final"])
c("C03","proved",["base64_encoding_is_rfc4648","base64_encoding_unique"])
c("C04","proved",["masking_is_bytewise_xor","masking_twice_is_identity","corrected_mask_continues_masking"])
c("C05","proved",["sha1_is_fips180_for_any_split"])
c("C06","proved",["host_to_big_endian_memory","host_to_little_endian_memory","big_endian_round_trip","little_endian_round_trip","big_endian_bytes_are_read_as_their_value","C06_windows_big_endian","C06_windows_reads_big_endian","C06_windows_little_endian","C06_zephyr_big_endian"],"glibc's byte-order macros are trusted to swap/keep; the intrinsics of Windows are modelled with shifts. Zephyr has only some of the functions.")
c("C07","proved",["memory_search_finds_first_occurrence"],"the portable implementation; the linux port calls libc memmem")
c("C44","proved",["random_bytes_number","random_bytes_split","random_full_period","random_increment_odd","random_bytes_are_pcg","random_seed_reports"])
c("C08","proved",["C08_chains_behave_like_sequences"],"for callers that respect the obligations spelled out in WriteBufferSpec.legal; loop bound `fuel` only has to exceed the program length")
c("C09","proved",["C09_split_moves_exactly_the_tail"])
c("C48","partial",["C48_is_last_element_tests_first","C48_is_last_element_refuted"],"VIOLATED by the code: the function tests for the first element; characterised exactly for every chain, with a witness")
c("C10","proved",["C10_bytes_offered_are_the_stream","C10_unread_bytes_are_the_stream","C10_no_undefined_behaviour"],"one read buffer per stream; handlers and transport are arbitrary oracles")
c("C11","proved",["C11_read_at_least","C11_acceptance"])
c("C12","proved",["C12_read_until"])
c("C13","proved",["C13_read_at_most"])
c("C14","partial",["C14_at_most_once","C14_answered_or_waiting_partial","C14_loop_iteration_progress","C14_request_lost_refuted"],"VIOLATED by the code for handlers that start a read when called with MESSAGE_TOO_LONG or a synchronous read_some error (request lost, witness); at-most-once unconditional, answered-or-waiting for all other users")
c("C17","partial",["C17_close_in_handler_takes_effect","C17_closed_is_final_partial","C17_second_close_refuted"],"VIOLATED in its last clause: a second close outside a handler closes the underlying stream again (witness); everything else proved")
c("C15","partial",["C15_bytes_sent_once_in_order_partial","C15_offers_what_is_missing","C15_write_can_finish","C15_data_sent_twice","C15_data_sent_twice_refuted","C15_no_undefined_behaviour"],"VIOLATED by the code when the first partial write ends inside the last element (whole chain is sent twice, proved for all chains + witness); proved for every other run")
c("C16","partial",["C16_chain_given_back_partial","C16_refused_write_keeps_chain","C16_synchronous_error_refuted"],"VIOLATED by the code when a later write_some call fails synchronously (witness); proved for all runs ended by a completion")
c("C18","proved",["ws_header_parses_back","ws_header_is_shortest"],"for the header builder of send_frame, every FIN, opcode, 64-bit length, key and role")
c("C20","proved",["ws_delivers_only_what_was_sent","ws_delivers_everything_received","ws_valid_frames_delivered_in_order","ws_valid_frames_delivered_completely","ws_valid_stream_raises_no_error","ws_ascii_stream_delivered_exactly"],"the application reads one message at a time (one_read_at_a_time); text that is cut inside a character is the exception recorded under C22")
c("C21","partial",["ws_violation_is_never_delivered","ws_violation_fails_with_1002","ws_failure_sends_close_frame","ws_overlong_length_delivered_refuted","ws_huge_length_delivered_refuted"],"VIOLATED in the length clauses (overlong and >2^63-1 lengths are accepted, witnesses); all other clauses proved for every reachable state")
c("C22","partial",["ws_text_is_utf8","ws_text_rejection_justified_partial","ws_valid_text_rejected_refuted"],"VIOLATED in the converse clause: a final frame whose chunk ends inside a character is rejected (witness)")
c("C23","partial",["ws_every_ping_is_answered","ws_pong_frame_sent","ws_ping_unanswered_refuted"],"VIOLATED when the application's own pong is in flight: the pong job is overwritten (witness)")
c("C24","proved",["ws_status_code_check","ws_reported_close_code_allowed","ws_close_frame_decision","ws_close_status_exact"],"payloads of exactly 3 bytes are excluded from the decision theorem because the code over-reads there (C25)")
c("C25","partial",["ws_close_frame_decision","ws_malformed_reason_accepted_refuted","ws_one_byte_reason_overreads_refuted","ws_valid_reason_rejected_refuted"],"VIOLATED: the last two bytes of the reason are never checked and a one-byte reason is over-read (witnesses); the theorem characterises exactly what is accepted")
c("C37","proved",["C37_callback_only_while_watched","C37_C38_batch_dispatched","C37_no_undefined_behaviour"],"kernel contract: a batch contains each watched notifier at most once")
c("C38","partial",["C37_C38_batch_dispatched","C38_readable_is_read","C38_stop","C38_error_reaches_nobody_refuted"],"VIOLATED in the last clause: an error condition without EPOLLIN/EPOLLOUT reaches no callback (witness); dispatch of readable/writable events characterised exactly for every batch")
c("C39","partial",["C39_one_call_per_arming","C39_no_call_without_arming","C39_calls_are_justified","C39_expiry_calls_handler","C39_cancel","C39_close_once","C39_hook_is_last","C39_no_undefined_behaviour","C39_arming_tells_the_truth","C39_rearm_in_aborted_handler_refuted","C39_close_in_aborted_handler_refuted","C39_zero_timeout_refuted","C39_second_arming_drops_first_refuted"],"VIOLATED: re-arming or closing in a handler called with OPERATION_ABORTED crashes; a zero timeout never fires; re-arming an armed timer drops its handler (witnesses). Proved for all other uses (TimerSpec.careful)")
c("C40","proved",["C40_duration_converted_exactly"])

c("C41","partial",["C41_read_answered_once","C41_write_answered_once","C41_no_unasked_call","C41_read_reports_the_kernel","C41_readiness_answers","C41_writable_answers","C41_connect_answers","C41_read_call","C41_write_call","C41_connect_call","C41_write_answered_while_closing","C41_bytes_sent_are_reported","C41_bytes_reported_are_sent","C41_spurious_readiness_refuted","C41_full_buffer_reported_as_eof_refuted","C41_second_read_refuted","C41_write_while_connecting_refuted"],"proved for orderly use; VIOLATED without it: a read that answers EAGAIN after readiness is forgotten, a full buffer is reported as end of file, a second read or a write during connect drops the first request (witnesses)")
c("C42","partial",["C42_no_undefined_behaviour","C42_closed_once","C42_close_terminates","C42_close_call","C42_graceful_close","C42_error_while_closing","C42_tiny_timeout_use_after_free_refuted"],"proved for every kernel behaviour except a close timeout that runs out inside cio_timer_expires_from_now, for which a use after free is exhibited")
c("C49","partial",["C42_graceful_close","C49_data_while_closing","C49_graceful_close_refuted"],"VIOLATED: after peer data the descriptor is not registered again, so the end of file is not seen and the close ends with a reset (witness); graceful when the peer sends nothing")

c("C43","partial",["C43_every_connection_exactly_once","C43_passed_was_accepted","C43_readiness","C43_accept_tells_the_truth","C43_nothing_after_close","C43_no_undefined_behaviour","C43_close_in_error_handler_refuted"],"proved unless the handler closes the server socket while being told that a client could not be initialised; then accept_callback uses the server socket after its close hook (witness)")
c("C45","partial",["C45_inet_address","C45_inet_address_null","C45_socket_address","C45_unix_path","C45_unix_abstract","C45_empty_path_overread_refuted"],"VIOLATED only for the empty UNIX path, whose terminator is over-read (witness)")
c("C50","proved",["C50_bind_inet4","C50_bind_inet6","C50_bind_unix_path","C50_bind_unix_abstract"])

c("C46","partial",["C46_parity","C46_stop_bits","C46_flow_control","C46_baud_rate","C46_data_bits_partial","C46_data_bits_refuted","C46_init","C46_failed_call","C46_errors_reported"],"VIOLATED for the number of data bits, which are or-ed without clearing CSIZE (characterised exactly, witness for every 8-bit configuration); proved for the other settings")
c("C47","partial",["C47_write_reports_partial","C47_no_error_reported_exactly","C47_bytes_lost_refuted"],"VIOLATED when the device would block after the first element: the bytes written are not reported (witness); what the device gets is always a prefix of the chain")
c("C51","partial",["C51_read_reports_partial","C51_no_data_no_answer","C51_answered_many_times_refuted","C51_data_before_request_refuted"],"VIOLATED: the port stays registered, so one request is answered for every readiness, and data before the first request calls an unset callback (witnesses)")
c("C52","partial",["C52_use_after_hook_refuted"],"VIOLATED in every history: cio_uart_close unregisters the port after the close hook")
c("C53","proved",["C53_never_waits_without_a_timer","C53_response_timeout_closes","C53_request_timeout_answers","C53_skipped_body_refuted"],"For every history in which the conditions named in the property (and in HttpSpec.guarded) hold; a handler that skips the body of an ordinary request leaves the connection without a timer (witness)")
c("C30","proved",["C30_accept_value","C30_C31_C32_example"],"For every key line of the request the 101 answer carries base64(SHA-1(key ++ GUID)), with the SHA-1 and base64 specifications of C05 and C03; the example is the RFC 6455 request.")
c("C31","proved",["C31_chosen_protocol","C31_pick_unique","C31_no_common_protocol_refused","C31_white_space_ignored","C30_C31_C32_example"],"Against a relational specification of comma separated lists of RFC 7230 tokens. A handler without a subprotocol list refuses every client that offers one.")
c("C32","proved",["C32_granted_exactly","C32_order_irrelevant","C32_other_headers_ignored","C30_C31_C32_example"],"Granted exactly for acceptable requests, for every list of header lines in any order; header values of bytes 1-255 (what http_parser lets through). The value of the Upgrade header is not checked by the code.")
c("C33","proved",["C33_longest_prefix_is_found","C33_not_found","C33_lookup_defined","C33_order_irrelevant","C33_example"],"For every history of registrations and every path.")
c("C34","partial",["C34_response_as_requested","C34_every_response_well_formed","C34_close_announced_is_kept","C34_announced_is_done","C34_announcement_follows_request","C34_early_response_refuted","C34_upgrade_refuted","C34_upgrade_request_refuted","C34_huge_body_refuted","C34_big_body_refuted","C34_timer_failure_refuted"],"Status line, headers, content length and body of every response proved; announced close is always kept, announced keep-alive is kept for responses sent after the request's headers. VIOLATED: responses sent before the headers have arrived announce keep-alive whatever the request says; after an asynchronous 101 the server goes on reading HTTP; a request with an Upgrade header that is answered normally is not followed by a read; bodies of 10^10 bytes and more; a failing response timer reports success (witnesses)")
c("C35","partial",["C35_one_response_at_a_time","C35_second_response_refused","C35_next_request_after_response_written","C35_requests_one_by_one","C35_pipelining","C35_nothing_parsed_after_close","C35_no_request_after_last","C35_refused_only_if_answered","C35_pipelined_gets_refuted"],"Refusal of second responses proved for every history. VIOLATED for pipelined requests without a content length: from the second request on the next one is parsed before the response is written (witness); proved for peers that do not pipeline that way")
c("C36","partial",["C36_every_step_is_defined","C36_released_at_most_once","C36_all_handlers_released","C36_pipelined_handler_leak_refuted","C36_alloc_failure_refuted","C36_close_in_written_callback_refuted","C36_write_ends_after_close_refuted","C36_accept_failure_refuted"],"Proved for every history within HttpModel.careful. VIOLATED outside it: handler leak with pipelined requests, NULL handler after alloc_handler failure, close in the response-written callback, write completion after close, accept failure (witnesses)")

c("C27","partial",["ws_writes_in_order","ws_one_write_at_a_time","ws_write_handlers_in_order","ws_no_write_forgotten","ws_writes_defined","ws_pong_error_then_next_write_refuted","ws_two_writes_at_once_refuted","ws_close_timeout_forgets_handlers_refuted"],"Proved for every execution of an application that issues one data chunk at a time, as long as no error was reported. VIOLATED after a write error or a failure, and when a close times out with writes pending (witnesses).")
c("C28","partial",["ws_write_without_handler_refused","ws_long_ping_refused","ws_busy_write_refused_partial","ws_continuation_of_nothing_accepted_refuted","ws_more_than_declared_accepted_refuted","ws_new_message_inside_frame_accepted_refuted","ws_long_reason_truncated_refuted","ws_continuation_overwrites_chunk_refuted"],"Refusals that the code makes are proved for every state; VIOLATED for continuation without start, more bytes than declared, a new message inside an unfinished frame and overlong close reasons (witnesses).")
c("C29","partial",["ws_frames_follow_rules","ws_all_frames_sent","ws_first_chunk_announces_length_partial","ws_queued_chunk_wrong_length_refuted","ws_pong_inside_frame_refuted"],"Proved for every execution in which each frame is written with one call (whole_frames). VIOLATED for frames written in chunks: a queued first chunk announces its own length, control frames are inserted between chunks (witnesses).")
c("C19","partial",["ws_peer_receives_payload","ws_chunks_form_one_frame_partial","ws_second_continuation_garbled_refuted","ws_continuation_buffer_truncated_refuted"],"Proved for frames written with one call (any division into buffer elements), and for frames in several chunks on a server, or on a client whose continuation chunks except the last have a length divisible by 4. VIOLATED otherwise: the client masks later chunks wrongly (witness).")
c("C26","partial",["ws_hook_called_at_most_once_partial","ws_at_most_one_close_frame_partial","ws_nothing_delivered_after_hook_partial","ws_handlers_called_before_hook_partial","ws_close_not_forgotten_partial","ws_hook_called_at_most_once_remote","ws_nothing_delivered_after_hook_remote","ws_failure_closes_remote","ws_failure_hook_after_write_remote","ws_hook_called_twice_refuted","ws_crossing_close_forgets_handlers_refuted","ws_send_after_hook_refuted","ws_ping_during_close_refuted"],"Proved for every execution without a reported error (..._partial), and for every execution, errors included, of an application that leaves the closing to the peer and the library (..._remote). VIOLATED otherwise: a local close followed by an error calls the hook twice and sends two close frames; crossing closes forget pending write handlers; a ping during a local close makes the code take the pong's abort for an error (witnesses).")
c("C54","proved",["C54_receiving_never_stalls","C54_waits_for_peer_or_write"],"The first theorem holds for every application whatsoever (the pong job is pending); the second, for applications that follow the rules of WsOutSpec.proper, says that its write is in flight and can complete.")
c("C55","proved",["ws_close_frame_is_answered"],"For every history of an application that reads one message at a time, whatever it writes; the answer is what is handed to the send queue, whose order and wire format are C27, C18 and C29.")
c("C56","proved",["C56_handler_called_only_for_sent_write","C56_result_is_the_streams","C56_aborted_after_failure"],"For applications that follow the rules of WsOutSpec.proper. The result theorem covers writes whose end is reported from the event loop; a write that ends inside the call that starts it takes the same path.")
c("C57","partial",["res_nothing_left_behind","res_all_closed_at_the_end","res_failed_init_leaves_nothing","res_init_adds","res_failed_serve_closes","res_failed_uart_init_partial","res_uart_init_leaks_refuted","res_http_init_leaks_refuted","res_shutdown_after_failed_serve_refuted"],"Proved for every history and every set of failing calls, for applications that destroy an event loop last and HTTP servers without TCP fast open. VIOLATED: cio_uart_init leaks its descriptor when tcgetattr fails; cio_http_server_init leaks it when TCP fast open cannot be set; cio_http_server_shutdown after a failed cio_http_server_serve closes the descriptor a second time (witnesses).")
c("C58","partial",["res_descriptors_never_block","res_uart_never_blocks","res_timer_inherited_refuted"],"Non-blocking proved for all descriptors (the epoll instance itself is only waited on), not inherited for sockets and serial ports. VIOLATED: the descriptors of timers and of cio_eventloop_cancel are inherited (witness).")
c("C59","proved",["res_options_reach_the_kernel","res_keep_alive_reaches_the_kernel","res_ipv6_sockets_are_ipv6_only"],"For every kernel state in which the socket is open.")
c("C60","proved",["C60_ports_are_the_links","C60_no_directory","C60_number_is_sufficient"],"For every directory, array and result of readlink and realpath, with character arrays modelled byte by byte. The number of ports and the list are read at different times in reality; the third theorem is about one directory content.")
c("C61","partial",["C61_every_step_is_defined","C61_handler_calls","C61_answered_at_most_once","C61_not_forgotten","C61_handlers_in_order_of_expiry","C61_hook_is_last","C61_duration","C61_close_after_expiry_refuted","C61_rearm_refuted","C61_loop_cancel_forgets_refuted","C61_eleven_timers_refuted","C61_durations_refuted"],"Proved for every execution within ZephyrTimerSpec.careful. VIOLATED outside it: a timer closed between running out and the call of its handler is used after its hook; re-arming in that window; cancelling the event loop drops notifications; eleven timers overflow the queue; durations of 25 days and more become negative, below a millisecond zero (witnesses).")
c("C62","partial",["C62_every_step_is_defined","C62_read_result","C62_write_result","C62_write_total","C62_answered_at_most_once","C62_not_forgotten","C62_hook_is_last","C62_nothing_lost","C62_large_packet_refuted","C62_read_and_write_refuted","C62_write_and_read_refuted","C62_close_refuted"],"Proved for every execution with one request at a time (ZephyrSocketSpec.careful; no byte lost: packets that fit into the buffer). VIOLATED otherwise: the end of a packet larger than the buffer is dropped; reading and writing share one notification, so a concurrent read and write confuse their handlers; a socket closed with a queued notification is used after its hook (witnesses).")
c("C63","partial",["C63_every_step_is_defined","C63_connections_in_order","C63_handler_told","C63_not_forgotten","C63_hook_is_last","C63_two_connections_refuted","C63_no_memory_refuted","C63_close_in_handler_refuted","C63_close_refuted","C63_accept_failure_refuted"],"Proved for every execution within ZephyrServerSpec.careful. VIOLATED outside it: a connection that arrives before the previous one was handed out replaces it (one leaks, one is handed out twice); closing with a connection queued or in the NO_MEMORY handler uses the server socket after its hook; a failing net_context_accept is reported as success (witnesses).")
c("C64","partial",["C64_every_step_is_defined","C64_read_result","C64_write_result","C64_connect_result","C64_answered_at_most_once","C64_not_forgotten","C64_hook_is_last","C64_hook_is_called","C64_nothing_after_close","C64_nothing_lost","C64_close_race_refuted","C64_close_while_connecting_refuted","C64_full_buffer_refuted","C64_connect_at_once_refuted","C64_write_in_connect_handler_refuted","C64_close_twice_refuted"],"Proved for every execution within WinSocketSpec.careful (a read and a write at a time; no close while a connect is pending or a completion is queued). VIOLATED outside it: closed when a completion is queued, or while connecting, the handler is called after close and the hook never; a read into a full buffer is reported as end of stream; a ConnectEx that succeeds at once calls the write handler, which is not set (witnesses).")
c("C65","partial",["C65_every_step_is_defined","C65_handler_calls","C65_cancel_result","C65_answered_at_most_once","C65_not_forgotten","C65_dispatch_calls_handler","C65_hook_is_last","C65_hook_is_called","C65_duration","C65_armed_with_duration","C65_close_unarmed_refuted","C65_close_after_expiry_refuted","C65_rearm_after_expiry_refuted","C65_failed_rearm_refuted","C65_rearm_in_aborted_handler_refuted","C65_close_in_aborted_handler_refuted","C65_stale_handle_refuted","C65_durations_refuted"],"Proved for every execution within WinTimerSpec.careful. VIOLATED outside it: closing a timer that was never armed reads an uninitialised handler; closed or armed between expiry and dispatch, or in its aborted handler, the timer is used after its hook or calls NULL; timeouts of 49.7 days and more wrap (witnesses).")
c("C66","partial",["C66_every_step_is_defined","C66_handler_told","C66_connections_in_order","C66_sockets_released_once","C66_keeps_accepting","C66_hook_is_last","C66_hook_is_called","C66_close_bound_refuted","C66_close_race_refuted","C66_prepare_failure_refuted","C66_failed_connection_refuted","C66_accept_unbound_refuted","C66_init_failure_refuted"],"Proved for every execution within WinServerSpec.careful. VIOLATED outside it: the hook of a server that is bound but does not accept is never called; closed with a connection queued, the handler is called after close and the hook never; when the next accept cannot be prepared the connection leaks, accepting stops and a socket is closed twice; an aborted client ends accepting; accept without bind reports success; a failing init calls the close hook or leaks, depending on uninitialised memory (witnesses).")
c("C67","partial",["C67_call","C67_set_succeeds","C67_get","C67_init","C67_history","C67_flow_control_refuted","C67_rates_refuted"],"Proved for parity, stop bits, data bits and the eleven offered baud rates. VIOLATED: setting a flow control returns success and does nothing, reading it is not supported; nineteen of the thirty rates are refused (witnesses).")
c("C68","partial",["C68_every_step_is_defined","C68_read_result","C68_write_result","C68_answered_at_most_once","C68_not_forgotten","C68_hook_is_last","C68_hook_is_called","C68_nothing_after_close","C68_nothing_lost","C68_bytes_on_the_line","C68_buffer_freed_refuted","C68_write_error_refuted","C68_idle_line_refuted","C68_full_buffer_refuted","C68_close_race_refuted"],"Proved for every execution within WinUartSpec.careful. VIOLATED outside it: the buffer of a pending write is freed before the driver has sent it; write errors are reported with the wrong sign; an idle line ends the stream after 49 days; closed with a completion queued, the handler is called after close and the hook never (witnesses).")
c("C69","partial",["C69_ports","C69_number","C69_number_suffices","C69_no_answer","C69_name","C69_init_partial","C69_init_refuted","C69_leak_refuted","C69_over_read_refuted","C69_no_nul_refuted","C69_key_closed_twice_refuted"],"Proved for devices within WinUartEnumSpec.tame, and for cio_uart_init unless it fails after the port was opened. VIOLATED: such a failure frees a buffer twice, and may close the handle twice; friendly names leak; strings are read to twice their length, so that a port may be missed or the program crash; a registry key may be closed twice (witnesses).")
c("C70","partial",["C70_messages_arrive_in_order","C70_pings_arrive_in_order","C70_pongs_answer_pings","C70_all_messages_arrive","C70_conversation_works","C70_text_rejected_refuted"],"Order, exactness and completeness are proved for senders that write whole frames (C29 shows what chunks do). That no error occurs is proved for ASCII texts, or if a frame is read in one piece. VIOLATED otherwise: a valid text that is cut inside a character is rejected by the peer (witness).")
c("C71","partial",["C71_entropy_is_fresh_or_refused","C71_linux_limit","C71_zephyr_partial","C71_seeded_from_entropy","C71_entropy_is_used","C71_zephyr_failure_refuted","C71_zephyr_device_refuted","C71_truncation_refuted"],"Proved for Linux (requests above 256 bytes always fail) and for Windows below 2^32 bytes. VIOLATED on Zephyr: a failing or missing entropy device goes unnoticed; on Windows and Zephyr sizes are cut to 32 and 16 bits and success is reported (witnesses).")
c("C72","partial",["C72_nothing_lost","C72_all_released","C72_sockets_belong_to_their_loop","C72_options_reach_the_kernel","C72_keep_alive_partial","C72_creation_is_honest_partial","C72_address_family_partial","C72_socket_init_refuted","C72_loop_error_refuted","C72_keep_alive_refuted","C72_address_family_refuted","C72_failed_init_calls_hook_refuted","C72_failed_init_leaks_refuted"],"Resources, registration and options proved for every orderly history (server sockets in zeroed memory). VIOLATED: cio_socket_init may report success without a socket (errno), the error of WSAStartup is positive, keep-alive seconds are set as milliseconds, an unbound socket has no family, a failing cio_server_socket_init calls the close hook or leaks (witnesses).")
c("C73","partial",["C73_every_byte_once","C73_room_for_every_packet","C73_errors_come_from_the_transport","C73_waits_only_for_missing_bytes","C73_messages_arrive_in_order","C73_conversation_works","C73_packets_matter_for_text_refuted"],"websocket.c on top of buffered_stream.c and read_buffer.h, every packet pattern. Proved for everything but the absence of errors for texts with characters of several bytes, which needs that each frame is read in one piece. VIOLATED otherwise: whether a valid text is accepted depends on the packets (witness).")
c("C74","partial",["C74_one_write_at_a_time","C74_bytes_on_the_wire","C74_wire_catches_up","C74_messages_arrive_in_order","C74_conversation_works","C74_message_arrives_twice_refuted"],"websocket.c on top of buffered_stream.c and write_buffer.c on the heap, then both endpoints through both streams. Proved for transports that do not refuse or fail and whose first write of a chain takes it all or stops before its last element. VIOLATED otherwise: the chain is sent twice and the peer's application gets a message twice, without any error (witness).")
c("C75","partial",["C75_one_write_at_a_time","C75_responses_on_the_wire","C75_wire_catches_up","C75_response_twice_refuted"],"http_server.c on top of buffered_stream.c and write_buffer.c on the heap. Proved for transports that do not refuse or fail and whose first write of a response takes it all or stops before its last element. VIOLATED otherwise: the whole response is sent twice, without any error (witness).")
c("C76","partial",["C76_windows_in_order","C76_windows_runs_until_cancelled","C76_windows_stops","C76_windows_cancel_is_noticed","C76_windows_runs_once_refuted","C76_windows_cancel_lost_refuted","C76_linux_stops","C76_linux_one_batch_per_run","C76_linux_runs_until_cancelled","C76_linux_runs_once_refuted","C76_zephyr_in_order","C76_zephyr_removed_is_not_called","C76_zephyr_runs_until_cancelled","C76_zephyr_cancel_drops","C76_zephyr_stops","C76_zephyr_cancel_is_noticed","C76_zephyr_runs_again","C76_zephyr_cancel_deadlock_refuted","C76_zephyr_full_queue_deadlock_refuted","C76_zephyr_stale_event_refuted","C76_zephyr_cancel_forgets_refuted"],"Order, stopping and (Zephyr) running again proved for every interleaving. VIOLATED: on Windows and Linux a cancelled loop cannot be run again (go_ahead stays false; the eventfd is never read), on Zephyr a cancel drops events for good; a failing PostQueuedCompletionStatus makes a cancel unnoticed; on Zephyr the loop's thread can wait for ever for room in its own queue, and an event outlives the removal of its notifier (witnesses).")
c("C77","partial",["C77_state_follows_history","C77_serves_when_nothing_fails","C77_serve_tells_the_truth","C77_configurations","C77_shutdown_calls_hook","C77_hook_after_shutdown","C77_zephyr_never_serves_refuted","C77_fast_open_leak_refuted","C77_shutdown_after_failure_refuted","C77_accept_ex_failure_refuted","C77_ioctl_failure_refuted","C77_still_listening_refuted"],"That serve tells the truth is proved for every history; the rest for histories in which fast open, WSAIoctl and AcceptEx do not fail and a failed server is not shut down. VIOLATED: no HTTP server can serve on Zephyr; a socket leaks when fast open cannot be set; shutdown after a failed serve and a failing AcceptEx close a socket twice; a failing WSAIoctl leaks a socket; on Windows the port is still bound after shutdown until the loop runs (witnesses).")
c("C78","proved",["C78_url_is_handed_over","C78_result","C78_refused","C78_no_path","C78_never_outside","C78_silent_after_response","C78_fresh_handler"],"For every division of the URL by http_parser whose parts lie within the URL; routing is that of C33, the response with an error status that of C34. The callback for the whole URL stops the parser also with CIO_HTTP_CB_SKIP_BODY, those for the parts do not.")
