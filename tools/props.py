import json
P=[]
def p(title,statement,quantifier,why,anchors):
    P.append(dict(id="C%02d"%(len(P)+1),title=title,statement=statement,quantifier=quantifier,why_tests_cant=why,anchors=anchors))

p("UTF-8 checker decides RFC 3629 well-formedness",
  "After feeding a byte sequence to a freshly initialised UTF-8 checker, the reported state is ACCEPT exactly when the whole sequence is the UTF-8 encoding of some sequence of Unicode scalar values (no overlong forms, no surrogates, nothing above U+10FFFF), REJECT exactly when no continuation whatsoever could make it well-formed, and an intermediate state otherwise.",
  "every byte sequence of every length",
  "The set of byte strings is infinite and the accept/reject decision depends on a 364-entry transition table; a single wrong entry is only visible on particular sequences.",
  ["lib/src/utf8_checker.c: UTF8D, decode, cio_check_utf8, cio_utf8_init","lib/include/cio/utf8_checker.h"])
p("UTF-8 checker is independent of chunking, alignment and machine word size",
  "Feeding a byte sequence to the UTF-8 checker in any number of chunks, each located at any memory alignment, on a machine with any word size, gives the same result as a byte-by-byte check of the whole sequence; once REJECT is reported every later call reports REJECT.",
  "every byte sequence, every split into chunks, every start alignment of each chunk, every word size",
  "The checker has three loops (unaligned prefix, word loop, suffix) selected by the address of the buffer, which tests cannot control exhaustively.",
  ["lib/src/utf8_checker.c: cio_check_utf8"])
p("Base64 encoding is RFC 4648 base64",
  "Encoding n input bytes produces exactly 4*ceil(n/3) characters, all from the base64 alphabet plus trailing padding, and decoding them with RFC 4648 gives back exactly the input; distinct inputs have distinct encodings.",
  "every input byte sequence",
  "Three length residues and every bit pattern have to be right.",
  ["lib/src/base64.c: cio_b64_encode_buffer"])
p("WebSocket masking is byte-wise XOR for every alignment",
  "Masking a buffer with a 4-byte key XORs byte i with key byte i mod 4, for any start address, length and machine word size, touches no byte outside the buffer, and masking twice with the same key restores the buffer.",
  "every buffer content and length, every key, every start alignment, word size 4 or 8 (any multiple of 4), both byte orders",
  "The implementation works word-wise with an alignment prologue and a rotated key; errors only show at particular alignment/length combinations.",
  ["lib/include/cio/websocket_masking.h: cio_websocket_mask, cio_websocket_correct_mask"])
p("SHA-1 digest equals FIPS 180 SHA-1 for any split of the input",
  "Feeding a message to the SHA-1 context in any number of input calls and asking for the result yields the FIPS 180 SHA-1 digest of the concatenated message, for every message shorter than 2^61 bytes; the split does not matter, and asking for the result again gives the same digest.",
  "every message below the length limit and every split into input calls",
  "Padding and block boundaries interact with message length modulo 64 and with the split.",
  ["lib/cio/sha1/sha1.c: sha1_reset, sha1_input, sha1_result, sha1_process_message_block, sha1_pad_message"])
p("Byte-order conversion is big-endian and invertible",
  "Converting a 16/32/64-bit host integer to big endian yields in memory the most-significant byte first, converting back gives the original value, on little- and big-endian hosts.",
  "every 16-, 32- and 64-bit value, both host byte orders",
  "2^64 values.",
  ["lib/src/platform/linux/endian.c","lib/include/cio/endian.h"])
p("Memory search finds the first occurrence",
  "The memory search returns the position of the first occurrence of the needle in the haystack and 'not found' exactly when it does not occur; it never reads outside the haystack.",
  "every haystack and needle (any length, including empty)",
  "The search space is infinite; partial matches and boundary positions are easy to miss.",
  ["lib/src/platform/shared/string_memmem.c: cio_memmem"])
p("Write buffer chains behave like a sequence",
  "Every sequence of operations on a write buffer (queue at head, tail, before or after an element, unlink, dequeue, peek, last, splice) behaves like the corresponding operation on a finite sequence of data elements; in every reachable state the element count and the total byte count reported for the chain equal those of the sequence, and the chain is a well-formed circular doubly linked list.",
  "every sequence of operations on any number of chains and elements",
  "Pointer manipulation corrupts state only for particular orders of operations; aliasing cases are unbounded.",
  ["lib/include/cio/write_buffer.h: cio_write_buffer_insert, cio_write_buffer_queue_before, cio_write_buffer_queue_after, cio_write_buffer_queue_head, cio_write_buffer_queue_tail, cio_write_buffer_unlink, cio_write_buffer_queue_dequeue, cio_write_buffer_queue_peek, cio_write_buffer_queue_last, cio_write_buffer_splice, cio_write_buffer_get_num_buffer_elements, cio_write_buffer_get_total_size"])
p("Splitting a chain moves exactly the tail",
  "Splitting a chain at an element appends to the target chain exactly the suffix starting at that element in order and leaves exactly the prefix, with correct element and byte counts on both.",
  "every chain, every element of it, every target chain",
  "Unbounded chain shapes; first/last/only element special cases.",
  ["lib/include/cio/write_buffer.h: cio_write_buffer_split_and_append"])
p("Buffered reads deliver the byte stream once and in order",
  "For any sequence of read_at_least / read_until / read_at_most requests issued by completion handlers that consume what they are offered, the bytes offered are consecutive segments of the underlying byte stream: nothing lost, duplicated or reordered, however the stream delivers its data.",
  "every byte stream, every way the transport cuts it into reads, every buffer size, every sequence of read requests and consumed amounts",
  "The number of schedules of partial reads is unbounded, and buffer compaction only happens in some of them.",
  ["lib/src/buffered_stream.c: fill_buffer, handle_read, run_read, internal_read_at_least, internal_read_until, internal_read_max, cio_buffered_stream_read_at_least, cio_buffered_stream_read_until, cio_buffered_stream_read_at_most"])
p("read_at_least honours its lower bound",
  "read_at_least completes successfully only when at least the requested number of bytes is unread in the buffer, reports exactly the requested number of bytes, accepts a request exactly when it is no larger than the buffer, and then never fails for lack of buffer space.",
  "every request size, buffer size and delivery schedule",
  "Depends on buffer occupancy and compaction at arbitrary points.",
  ["lib/src/buffered_stream.c: internal_read_at_least, cio_buffered_stream_read_at_least"])
p("read_until completes at the first delimiter",
  "read_until completes successfully only when the unread data contains the delimiter, and reports exactly the number of bytes up to and including its first occurrence, even if the delimiter is cut by transport reads; if the buffer is full without a delimiter it reports MESSAGE_TOO_LONG.",
  "every byte stream, delimiter and delivery schedule",
  "Delimiters split over reads at every possible position.",
  ["lib/src/buffered_stream.c: internal_read_until, cio_buffered_stream_read_until"])
p("read_at_most honours its upper bound",
  "read_at_most completes successfully with at least one and at most the requested number of bytes (for a request of at least one byte), and with everything available if that is less than requested.",
  "every request size, buffer occupancy and delivery schedule",
  "Depends on buffer occupancy at arbitrary points.",
  ["lib/src/buffered_stream.c: internal_read_max, cio_buffered_stream_read_at_most"])
p("Every buffered read request is answered exactly once",
  "Each accepted read request on a buffered stream leads to exactly one call of its handler as soon as the transport supplies enough data, an error or end of file; requests issued from within a handler are not lost, and no handler is called for a request that was never made.",
  "every sequence of requests issued inside or outside handlers and every transport behaviour (synchronous error, asynchronous completion, end of file)",
  "Re-entrancy: the handler may issue the next request from inside any internal call path.",
  ["lib/src/buffered_stream.c: call_handler, fill_buffer, run_read, start_read, handle_read"])
p("Buffered writes send every byte exactly once and in order",
  "A buffered write of a chain of buffers hands the transport exactly the concatenation of the chain's data: for every sequence of partial writes, the bytes accepted by the transport are that concatenation, and the handler reports success exactly when all of it was accepted.",
  "every chain, every sequence of partial write results",
  "Partial writes can stop at any byte of any element; unbounded schedules.",
  ["lib/src/buffered_stream.c: cio_buffered_stream_write, handle_first_write, handle_partial_writes, handle_write"])
p("A completed buffered write gives the caller his chain back unchanged",
  "When the handler of a buffered write is called, with success or with an error, the caller's write buffer again contains exactly the elements it contained when the write was started, in order and with unchanged data and counts.",
  "every chain, every sequence of partial writes ended by success or error, reported synchronously or asynchronously",
  "The internal chain surgery depends on the exact byte position of each partial write.",
  ["lib/src/buffered_stream.c: handle_write, handle_partial_writes, handle_first_write, cio_buffered_stream_write"])
p("Closing a buffered stream is refused or final",
  "Closing a buffered stream closes the underlying stream; a close issued from inside a read handler (however often) takes effect exactly once, when that handler has returned, and after it the read loop calls no further handler and issues no further transport read for requests made by that handler; a buffered stream that is already closed does not close the underlying stream again.",
  "every history of requests before and after close, including close from inside a handler",
  "Interleavings of close with read and write completion.",
  ["lib/src/buffered_stream.c: cio_buffered_stream_close, run_read"])
p("Outgoing WebSocket frame headers are valid and minimal",
  "Every frame header the WebSocket sends has RSV bits zero, the shortest possible length encoding of the declared payload length, the mask bit set exactly when the endpoint is a client, and parses back to the same FIN flag, opcode, length and masking key.",
  "every FIN flag, opcode, 64-bit payload length, masking key and role",
  "2^64 lengths with three encodings and boundaries.",
  ["lib/src/websocket.c: send_frame"])
p("Outgoing WebSocket payload arrives unchanged at the peer",
  "The peer that unmasks the transmitted payload bytes of a frame with the transmitted key obtains exactly the application payload, for any division of the message into write chunks and buffer elements.",
  "every payload, key, division into chunks and elements, client or server role",
  "Masking offset depends on the lengths of all previous elements and chunks.",
  ["lib/src/websocket.c: mask_write_buffer, swap_bytes, rotate_left, send_frame, cio_websocket_write_message_first_chunk, cio_websocket_write_message_continuation_chunk"])
p("Received WebSocket data is the unmasked payload in order",
  "For every sequence of valid frames, the data handed to the read handlers are exactly the unmasked payload bytes of the data frames in order, with correct message type, chunk and frame end markers, however the transport and the read buffer cut the stream.",
  "every sequence of valid frames, every key, every read buffer size and delivery schedule",
  "Unbounded combinations of frame sizes, chunking and interleaved control frames.",
  ["lib/src/websocket.c: get_header, get_first_length, get_length16, get_length64, get_mask_or_payload, get_mask, read_payload, get_payload, handle_frame, handle_binary_frame, handle_text_frame"])
p("WebSocket protocol violations are never delivered",
  "A frame with reserved bits or a reserved opcode, a fragmented or oversized (>125) control frame, a continuation without a started message, a new data frame inside a fragmented message, an unmasked frame received by a server or a masked frame received by a client, an overlong or >2^63-1 payload length never reaches a data handler; the connection is failed with close status 1002 and no further frame is processed.",
  "every connection state and every frame header",
  "The product of connection states and malformed headers is large, and every path has to end in the error handler.",
  ["lib/src/websocket.c: get_header, handle_fin, get_first_length, get_length16, get_length64, handle_error, handle_frame"])
p("Text delivered by the WebSocket is valid UTF-8",
  "The concatenation of the text chunks delivered for a message is always a prefix of a well-formed UTF-8 text and the complete message is well-formed UTF-8 when the final chunk is delivered; conversely a message that is well-formed UTF-8 is never rejected, however it is cut into frames and chunks.",
  "every text message, well-formed or not, every fragmentation and chunking",
  "Multi-byte sequences can be cut at every position by frames, by the read buffer and by the transport.",
  ["lib/src/websocket.c: handle_text_frame, cio_websocket_read_message", "lib/src/utf8_checker.c"])
p("Pings are answered with the same payload",
  "Every valid ping frame is answered by exactly one pong frame carrying the same payload (unless the connection is closing), in order, and ping/pong frames neither end nor alter a fragmented message in progress.",
  "every ping payload of 0 to 125 bytes and every state of the connection, including another pong still being written",
  "Depends on what is queued or in flight at that moment.",
  ["lib/src/websocket.c: handle_ping_frame, pong_frame_written, handle_pong_frame, enqueue_job"])
p("Close status codes are validated as RFC 6455 requires",
  "A received close frame with a status code is accepted exactly for codes 1000-1003, 1007-1011 and 3000-4999, an empty close frame is reported as normal closure, and a one-byte close payload is a protocol error.",
  "every 16-bit status code, every close payload",
  "65536 codes and range boundaries.",
  ["lib/src/websocket.c: is_invalid_status_code, handle_close_frame"])
p("The close reason is checked as UTF-8 in full and within bounds",
  "Handling a received close frame reads only bytes of that frame's payload and accepts the close reason exactly when the whole reason is well-formed UTF-8.",
  "every close frame payload of 0 to 125 bytes",
  "Memory safety and validity have to hold for every payload; an out-of-bounds read does not fail a test reliably.",
  ["lib/src/websocket.c: handle_close_frame"])
p("The closing handshake terminates the connection once",
  "After a close is initiated locally, by the peer, by an error or by a timeout, at most one close frame is sent, and the application's close hook is called exactly once, after every pending write handler was called with an error or success; nothing is delivered after the close hook.",
  "every order of local close, received close frame, errors, timeouts and write completions",
  "Races between the peer's close, the local close, the timer and in-flight writes.",
  ["lib/src/websocket.c: cio_websocket_close, handle_close_frame, close, close_frame_written, response_close_frame_written, close_timeout_handler, handle_error, abort_write_jobs"])
p("Queued WebSocket writes complete in order, one at a time",
  "Accepted WebSocket writes (messages, pings, pongs, close) are transmitted in the order of the calls, at most one is in flight at any time, and the handler of each accepted write is called exactly once.",
  "every sequence of write calls and completion events",
  "Unbounded queue histories with handlers that enqueue further writes.",
  ["lib/src/websocket.c: enqueue_job, dequeue_job, write_jobs_popfront, message_written, abort_write_jobs"])
p("Illegal WebSocket write calls are refused without effect",
  "Starting a new message while one is unfinished, continuing a message that was not started, writing more bytes than declared, sending a control frame with more than 125 payload bytes, or closing with a reason of more than 123 bytes returns an error and neither sends nor queues anything.",
  "every state of the connection and every argument combination",
  "Depends on arbitrary write histories.",
  ["lib/src/websocket.c: cio_websocket_write_message_first_chunk, cio_websocket_write_message_continuation_chunk, cio_websocket_write_ping, cio_websocket_write_pong, cio_websocket_close, payload_size_in_limit"])
p("A message sent in several frames follows the RFC 6455 fragmentation rules",
  "For every sequence of accepted message writes, the transmitted data frames consist of complete messages: the first frame carries the text or binary opcode, all further frames of the message carry the continuation opcode, exactly the last one has FIN set, and each transmitted length equals the declared frame length.",
  "every sequence of accepted first-chunk and continuation writes, queued or not",
  "Unbounded histories; the queueing path differs from the direct path.",
  ["lib/src/websocket.c: cio_websocket_write_message_first_chunk, cio_websocket_write_message_continuation_chunk, message_written, send_frame"])
p("The Sec-WebSocket-Accept value is the RFC 6455 value",
  "The upgrade response carries base64(SHA-1(key || GUID)) for the 24-character key sent by the client.",
  "every 24-byte key",
  "2^192 keys; depends on SHA-1 and base64 being right.",
  ["lib/src/websocket_location_handler.c: save_websocket_key, send_upgrade_response"])
p("Subprotocol negotiation picks a protocol offered by both sides",
  "If the upgrade answer names a subprotocol, that subprotocol is the first one in the client's comma-separated list that the server supports; if none of the offered ones is supported the upgrade is refused; white space around list elements is ignored.",
  "every header value and every list of supported subprotocols",
  "Unbounded strings with arbitrary delimiters and white space.",
  ["lib/src/websocket_location_handler.c: check_websocket_protocol, find_delimiter, handle_word, find_requested_sub_protocol"])
p("The WebSocket upgrade is granted only for a valid handshake",
  "101 Switching Protocols is sent only if the request is at least HTTP/1.1, is a GET upgrade request, carried Sec-WebSocket-Version 13 and a Sec-WebSocket-Key of exactly 24 characters; otherwise 400 Bad Request is sent, whatever the order of the headers.",
  "every sequence of header fields",
  "Every order, repetition and omission of headers.",
  ["lib/src/websocket_location_handler.c: handle_field_name, handle_field_value, check_http_version, handle_headers_complete, save_websocket_key, check_websocket_version"])
p("HTTP requests are routed to the longest registered prefix",
  "A request path is routed to the registered location that is the longest prefix of the path ending at a path-segment boundary; if there is none the client gets 404; registration order does not matter except between equal locations.",
  "every set of registered locations and every request path",
  "Infinite sets of paths and locations with shared prefixes.",
  ["lib/src/http_server.c: location_match, find_location, on_url"])
p("HTTP responses are well-formed and announce their connection handling",
  "Every response sent has the right status line, a content length equal to the body size, and a Connection header that says keep-alive exactly when the server will keep reading requests from that connection.",
  "every status code, body and connection state",
  "Combination of states and bodies of arbitrary length.",
  ["lib/src/http_server.c: write_response, start_response_header, end_response_header, get_response_statusline, response_written"])
p("HTTP requests on one connection are answered one at a time",
  "A request handler can have at most one response outstanding: a second response before the first has been written is refused; the next pipelined request is parsed only after the response of the previous one has been written; nothing is parsed after the connection was marked to be closed.",
  "every history of requests, responses and write completions on a keep-alive connection",
  "Interleavings of pipelined input and asynchronous response completion.",
  ["lib/src/http_server.c: write_response, response_written, restart_read_request, on_message_complete, on_headers_complete"])
p("HTTP clients are released exactly once",
  "For every accepted connection, whatever happens (parse errors, timeouts, client disconnect, handler failures, upgrade), the location handler and the client are each released exactly once and never used afterwards.",
  "every history of events on a connection",
  "Use-after-free shows only in particular interleavings.",
  ["lib/src/http_server.c: close_client, free_handler, close_bs, mark_to_be_closed, handle_server_error, response_written, restart_read_request, handle_accept, client_timeout_handler"])
p("No callback runs for a removed event source",
  "Once a notifier has been removed from the event loop, none of its callbacks is called any more, even if its event is already in the batch being dispatched, and no other notifier loses an event because of the removal.",
  "every batch of kernel events and every set of registrations/removals performed inside callbacks",
  "Depends on the position of events within a batch and on what callbacks do.",
  ["lib/src/platform/linux/epoll.c: cio_linux_eventloop_remove, erase_pending_event, handle_removed_ev, cio_eventloop_run"])
p("Every ready registered event is dispatched",
  "Each event reported by the kernel for a live notifier leads to a call of its read callback if it is readable and registered for reading, and of its write callback if it is writable and registered for writing, in the order of the batch; error conditions reach at least one registered callback.",
  "every batch of events and every registration state",
  "All combinations of flags and callback effects.",
  ["lib/src/platform/linux/epoll.c: cio_eventloop_run, cio_linux_eventloop_register_read, cio_linux_eventloop_unregister_read, cio_linux_eventloop_register_write, cio_linux_eventloop_unregister_write"])
p("Timers fire exactly once per arming",
  "Each successful arming of a timer leads to exactly one call of its handler: with success when it expires, or with OPERATION_ABORTED if it is cancelled or closed before; cancelling an idle timer is refused; a handler may re-arm or close the timer.",
  "every sequence of arm, expire, cancel and close operations including those made inside handlers",
  "Orderings of expiry and cancellation, re-entrancy.",
  ["lib/src/platform/linux/timer.c: cio_timer_expires_from_now, cio_timer_cancel, cio_timer_close, timer_read"])
p("Timer durations are converted exactly",
  "The seconds/nanoseconds pair programmed into the kernel represents exactly the requested number of nanoseconds, with nanoseconds below one second.",
  "every 64-bit duration",
  "2^64 values.",
  ["lib/src/platform/linux/timer.c: convert_timeoutns_to_itimerspec"])
p("Socket reads and writes report what the kernel did",
  "Each accepted read on a socket leads to exactly one handler call reporting the number of bytes received, end of file, or the kernel's error; a write that would block reports its result when the socket becomes writable; no request is forgotten.",
  "every sequence of kernel results (data, EOF, EAGAIN, errors)",
  "Kernel results such as spurious readiness cannot be provoked reliably.",
  ["lib/src/platform/linux/socket.c: read_callback, stream_read, stream_write, write_callback"])
p("A closed socket releases its resources once",
  "Closing a socket unregisters it, releases the file descriptor exactly once and calls the close hook exactly once after that, whether it is closed gracefully, by timeout or by reset.",
  "every history of close, peer data, end of file and close timeout",
  "Races of the peer's reaction with the close timer.",
  ["lib/src/platform/linux/socket.c: cio_socket_close, shutdown_socket, read_until_close_callback, close_timeout_handler, reset_connection, close_socket, close_and_call_hook"])
p("A server socket hands out every accepted connection",
  "Every connection the kernel hands out is passed exactly once to the accept handler as an initialised socket, or is closed and reported to the handler as an error; nothing is accepted after the server socket was closed, and the server socket is not used after its close hook was called.",
  "every sequence of accept results and handler actions",
  "Depends on the number of pending connections and on what the handler does.",
  ["lib/src/platform/linux/server_socket.c: accept_callback, cio_server_socket_accept, cio_server_socket_close"])
p("Random generator output is a deterministic full-period PCG stream",
  "Two generators seeded with the same entropy deliver the same bytes; the number of bytes requested is delivered exactly; requesting m and then n bytes equals requesting m+n; the increment is odd (so the underlying generator has full period 2^64); the bytes are those of the published generator PCG XSH-RR 64/32, and a failing entropy source is reported to the caller.",
  "every seed and every request size",
  "2^128 seeds.",
  ["lib/src/random.c: cio_random_seed_rng, cio_random_get_bytes"])
p("Addresses keep what they were initialised with",
  "Initialising an internet address with 4 or 16 bytes yields an IPv4 or IPv6 address with exactly these bytes, other lengths are refused; socket and UNIX addresses report the family, port, and path they were given, and too long UNIX paths are refused.",
  "every address byte sequence, port, path",
  "Unbounded inputs and boundary lengths.",
  ["lib/src/platform/shared/inet_address_impl.c","lib/src/platform/shared/socket_address_impl.c","lib/src/platform/linux/unix_address.c"])
p("UART settings read back as written",
  "After successfully setting parity, number of data bits, stop bits, flow control or baud rate, reading the setting back returns the value set and the other settings are unchanged, whatever the previous configuration was.",
  "every previous terminal configuration and every value",
  "All pairs of old and new settings over a 32-bit flag word.",
  ["lib/src/platform/linux/uart.c: cio_uart_set_parity, cio_uart_get_parity, cio_uart_set_num_data_bits, cio_uart_get_num_data_bits, cio_uart_set_num_stop_bits, cio_uart_get_num_stop_bits, cio_uart_set_flow_control, cio_uart_get_flow_control, cio_uart_set_baud_rate, cio_uart_get_baud_rate"])
p("UART writes report the bytes transmitted",
  "A UART write hands the chain's bytes to the device in order, and the number of bytes reported to the handler is the number of bytes the device accepted, so that a caller continuing after a partial write neither repeats nor skips bytes.",
  "every chain and every sequence of device results",
  "Device back-pressure at any byte.",
  ["lib/src/platform/linux/uart.c: stream_write"])
p("is_last_element recognises the last element",
  "cio_write_buffer_is_last_element answers true exactly for the last element of the chain.",
  "every chain and every element of it",
  "Chains are unbounded; a one-element chain cannot tell first from last.",
  ["lib/include/cio/write_buffer.h: cio_write_buffer_is_last_element"])
p("A graceful close ends without resetting the connection",
  "If the peer closes its side within the close timeout, closing a socket ends with an orderly release of the connection, not with a reset, whatever the peer sent before closing.",
  "every sequence of data, end of file and timeouts after the close call",
  "Depends on the interleaving of peer data, readiness events and the timer.",
  ["lib/src/platform/linux/socket.c: read_until_close_callback, shutdown_socket, close_timeout_handler"])
p("Binding hands the kernel exactly the given address",
  "Binding a server socket passes exactly the bytes of the initialised address to the kernel; a file is removed only for a non-abstract UNIX address, before binding, and exactly the file of that path; if that fails nothing is bound.",
  "every address, port, path and kernel answer",
  "Unbounded inputs; removing the wrong file is only visible for particular paths.",
  ["lib/src/platform/linux/server_socket.c: cio_server_socket_bind, is_standard_uds_socket, try_removing_uds_file","lib/src/platform/linux/unix_address.c"])
p("A UART read request is answered exactly once",
  "Each read request on a serial port's stream leads to exactly one handler call reporting the data received, end of file or the error, and data is never reported to a handler that did not ask for it.",
  "every sequence of requests and device events",
  "Depends on how often and when the device becomes readable.",
  ["lib/src/platform/linux/uart.c: stream_read, read_callback, cio_uart_init"])
p("A UART is not used after its close hook",
  "Closing a serial port releases its descriptor and registration and then calls the close hook; the library does not access the port's memory afterwards, so that the hook may free it.",
  "every history of a serial port",
  "Use after free is invisible to functional tests.",
  ["lib/src/platform/linux/uart.c: cio_uart_close","lib/include/cio/uart.h: cio_uart_init"])
p("The HTTP server never waits without a timeout",
  "Whenever the server waits for the peer, the application or the stream on an open connection that is not about to change its protocol, a timeout is running; when it expires the peer is answered with 408 or the connection is closed. (For peers that wait for a response before the next request, and handlers that skip the body only of requests that change the protocol.)",
  "every history of bytes, callbacks, results, failures of timers and of the stream",
  "A connection that waits for ever shows up only in particular histories, and never in finite time.",
  ["lib/src/http_server.c: on_headers_complete, on_message_complete, restart_read_request, client_timeout_handler, write_response, response_written"])
p("A pending WebSocket read never stalls",
  "As long as a read request has not been answered, no error has been reported and the peer has not sent a close frame, the connection always goes on: either the library waits for bytes of the peer, or its automatic pong is being written and the completion of that write makes it wait for bytes again. Pings and pongs that arrive in between never swallow the request.",
  "every history of reads, writes, received frames split anywhere and completions",
  "A stall is an endless wait in some interleaving of control frames, writes and completions.",
  ["lib/src/websocket.c: cio_websocket_read_message, handle_ping_frame, handle_pong_frame, pong_frame_written, read_message"])
p("The peer's close frame is answered with its own status and reason",
  "A close frame that arrives before the application has closed the connection is answered at once with exactly one close frame that carries the status code and the reason received, or 1000 if none was given.",
  "every close payload and every history before it, with any writes pending",
  "All status codes and reasons, split anywhere, in every state of the send queue.",
  ["lib/src/websocket.c: handle_close_frame, prepare_close_job, enqueue_job"])
p("The handler of a WebSocket write is told the true result",
  "The handler of a message or ping is called with the result the stream reported for exactly this write, never before the write was handed to the stream; when the connection fails, the handlers of all writes still waiting are told that they were aborted, never that they succeeded.",
  "every sequence of writes, completions, received frames and failures",
  "Depends on how completions, queued writes and failures interleave.",
  ["lib/src/websocket.c: message_written, abort_write_jobs, write_jobs_popfront, handle_error"])
p("Nothing is left behind by objects that failed or were destroyed",
  "Whatever an application creates and destroys (event loops, timers, sockets, server sockets, HTTP servers, serial ports) and whichever system calls fail: an init function that reports an error leaves no descriptor open and nothing registered; the open descriptors are always exactly those of the existing objects; closing or destroying all objects closes all descriptors, and no descriptor is used or closed after it was closed.",
  "every history of creations, uses and destructions, with any subset of system calls failing",
  "Every combination of failing system calls in every history; leaks show up only after long runs.",
  ["lib/src/platform/linux/socket_utils.c: cio_linux_socket_create","lib/src/platform/linux/timer.c: cio_timer_init, cio_timer_close","lib/src/platform/linux/socket.c: cio_socket_init, cio_linux_socket_init","lib/src/platform/linux/server_socket.c: cio_server_socket_init, accept_callback, cio_server_socket_close","lib/src/platform/linux/epoll.c: cio_eventloop_init, cio_eventloop_destroy","lib/src/platform/linux/uart.c: cio_uart_init","lib/src/http_server.c: cio_http_server_init, cio_http_server_serve, cio_http_server_shutdown"])
p("Descriptors never block the event loop and are not inherited",
  "Every descriptor the library reads from or writes to is non-blocking, also those of accepted connections, so that no callback can block the event loop; the library's descriptors are not inherited by programs the application starts.",
  "every history of creations, with any subset of system calls failing",
  "Blocking shows up only in particular timings; inheritance only in other programs.",
  ["lib/src/platform/linux/socket_utils.c: cio_linux_socket_create","lib/src/platform/linux/timer.c: cio_timer_init","lib/src/platform/linux/server_socket.c: accept_callback","lib/src/platform/linux/epoll.c: cio_eventloop_init","lib/src/platform/linux/uart.c: cio_uart_init"])
p("Socket options reach the kernel",
  "A function that sets an option of a socket (no delay, keep-alive with its three parameters, fast open, reuse of addresses) reports success only if the kernel has the requested values, and changes no other option; after an error the option is as before. IPv6 sockets serve IPv6 only.",
  "every option value, every state of the kernel, every failing call",
  "Failure of each of several calls in a row, for all values.",
  ["lib/src/platform/linux/socket.c: cio_socket_set_tcp_no_delay, cio_socket_set_keep_alive, cio_socket_set_tcp_fast_open","lib/src/platform/linux/server_socket.c: cio_server_socket_set_reuse_address, cio_server_socket_set_tcp_fast_open","lib/src/platform/linux/socket_utils.c: cio_linux_socket_create"])
p("Enumeration of serial ports lists each link once, within the caller's array",
  "Reading the list of serial ports fills the entries of the caller's array, in the order of the directory, with the resolved path and the name of every link in the directory of serial ports, at most as many as the array has; the number reported is the number of entries filled. The number of ports reported beforehand is large enough for all of them. A missing directory and an error while resolving a link are reported as such; no byte outside the arrays is read or written.",
  "every content of the directory, every size of the array, every result of resolving a link",
  "Directory contents, array sizes and failures are unbounded.",
  ["lib/src/platform/linux/uart.c: cio_uart_get_number_of_uarts, cio_uart_get_ports"])
p("Timers on Zephyr call their handler exactly once, in order of expiry",
  "On Zephyr, the handler of an armed timer is called once: with success after the timer has run out, in the order in which timers ran out, or with CIO_OPERATION_ABORTED when the timer was cancelled or closed before that; never after the close hook, which is called once at the end. The time given to the kernel is the one requested, to the millisecond.",
  "every history of timers, every interleaving of expiry (interrupt context) with the event loop and the application",
  "Expiry interrupts can come between any two steps of the event loop and the application.",
  ["lib/src/platform/zephyr/timer.c: cio_timer_init, cio_timer_expires_from_now, cio_timer_cancel, cio_timer_close, timer_callback, expire, stop","lib/src/platform/zephyr/eventloop.c: cio_eventloop_run, cio_eventloop_cancel, cio_zephyr_eventloop_add_event, cio_zephyr_eventloop_remove_event"])
p("Zephyr sockets answer every read and write once, with what happened",
  "On Zephyr, a read is answered once, with the bytes that arrived (as many as fit into the buffer), the end of the stream or the error; a write is answered once, with the number of bytes in the chain or the error. No request is forgotten, no received byte is lost or reordered, the close hook is called once and nothing happens to the socket afterwards.",
  "every sequence of requests, closes, packets and transmission reports, interleaved with the event loop in any way",
  "The network stack runs in its own thread; its callbacks come between any two steps of the event loop and the application.",
  ["lib/src/platform/zephyr/socket.c: tcp_received, read_callback, stream_read, written_callback, tcp_sent, stream_write, cio_socket_close","lib/src/platform/zephyr/eventloop.c: cio_eventloop_run, cio_zephyr_eventloop_add_event"])
p("Zephyr server sockets hand out every connection once, in order",
  "On Zephyr, every connection that is set up while the server accepts is handed to the application exactly once, in the order of arrival, or closed if the application has no memory for it; failures are reported as such; after the close hook the server socket is not used any more.",
  "every sequence of connections, failures, allocation failures and closes, interleaved with the event loop in any way",
  "Connections arrive in another thread, between any two steps of the event loop and of the handlers.",
  ["lib/src/platform/zephyr/server_socket.c: cio_server_socket_accept, net_context_accept_cb, accept_callback, cio_server_socket_close","lib/src/platform/zephyr/eventloop.c: cio_eventloop_run, cio_zephyr_eventloop_add_event, cio_zephyr_eventloop_remove_event"])
p("Windows sockets answer every request once, and close only when the kernel is done",
  "On Windows, every read, write and connect that was accepted is answered at most once, with what the kernel reported (bytes, end of stream, count or error), and none is forgotten; bytes reach the application completely and in order. After close no handler is called any more, and the close hook is called exactly once, as soon as the kernel has given back the read and the write in progress, as the last event.",
  "every sequence of requests and closes, with the kernel ending operations at any time and in any order",
  "Completions race with the application's calls; the memory of the socket belongs to the kernel until the last of them was taken from the queue.",
  ["lib/src/platform/windows/socket.c: try_free, read_callback, stream_read, write_callback, stream_write, connect_callback, cio_socket_connect, cio_socket_close","lib/src/platform/windows/iocp.c: cio_eventloop_run"])
p("Windows timers call their handler once, for the right reason, and never after the hook",
  "On Windows, every arming of a timer is answered at most once: with CIO_SUCCESS after the timer has run out, or with CIO_OPERATION_ABORTED if it was cancelled or closed before; none is forgotten. Cancelling reports success exactly if it prevented the expiry. The close hook is called once, when no handler call is owed, and nothing touches the timer afterwards. A timeout is kept up to a millisecond.",
  "every sequence of arming, cancelling and closing, in and outside of handlers, with the timer running out in another thread at any moment",
  "The expiry callback runs in a thread of the pool, between any two steps of the application and of the event loop.",
  ["lib/src/platform/windows/timer.c: timer_callback, timer_event_callback, cio_timer_init, cio_timer_cancel, cio_timer_close, cio_timer_expires_from_now","lib/src/platform/windows/iocp.c: cio_eventloop_run"])
p("Windows server sockets hand out every connection once, in order, and lose no socket",
  "On Windows, every connection that arrives while the server accepts is told to the accept handler exactly once, in the order of arrival: handed over open with CIO_SUCCESS, or closed and reported as an error. The server goes on accepting until it is closed. Every socket it opened is closed or handed over exactly once. After close no handler is called; the close hook is called once, as soon as the kernel has given back the accept in progress, as the last event.",
  "every sequence of bind, accept, connections, allocation failures and close, with completions queued at any moment",
  "Connections complete in the kernel between any two steps; leaks and double closes show only in combinations of failures and closes.",
  ["lib/src/platform/windows/server_socket.c: try_free, accept_callback, prepare_accept_socket, close_listen_socket, create_listen_socket, cio_server_socket_accept, cio_server_socket_bind, cio_server_socket_close","lib/src/platform/windows/iocp.c: cio_eventloop_run"])
p("The settings of a serial port on Windows are set, kept and read back",
  "On Windows, after cio_uart_init a serial port runs at 115200 baud with 8 data bits, no parity, one stop bit and no flow control. Every cio_uart_set function that returns CIO_SUCCESS puts the setting into effect and leaves every other setting as it is; a call that fails leaves all as they are; a cio_uart_get function returns the setting in effect. This holds after every history of calls.",
  "every configuration of the port before, every setting, every failure of the device, and every history of calls",
  "The settings of a device before a call are arbitrary; tests run against one device in one state.",
  ["lib/src/platform/windows/uart.c: cio_uart_init, set_comm_settings, cio_uart_set_parity, cio_uart_get_parity, cio_uart_set_num_stop_bits, cio_uart_get_num_stop_bits, cio_uart_set_num_data_bits, cio_uart_get_num_data_bits, cio_uart_set_flow_control, cio_uart_get_flow_control, cio_uart_set_baud_rate, cio_uart_get_baud_rate"])
p("Reads, writes and close on Windows serial ports are answered once and honestly",
  "On Windows, every read and write on the stream of a serial port that was started is answered exactly once, with what the driver did: the bytes received, in order and without loss; the number of bytes of the request, from its beginning, that went over the line; or the error as a negative code. After close no handler is called; the close hook is called once, as soon as the kernel has given back the operations in progress, as the last event.",
  "every sequence of reads, writes and close, from handlers or elsewhere, with completions queued at any moment",
  "Completions and cancellations race in the kernel; the driver may look at the bytes at any time.",
  ["lib/src/platform/windows/uart.c: try_free, read_callback, write_callback, stream_read, stream_write, stream_close, cio_uart_close","lib/src/platform/windows/iocp.c: cio_eventloop_run"])
p("Serial ports on Windows are found under their names, and nothing is lost or released twice",
  "On Windows, cio_uart_get_ports fills in the first ports of the system whose registry name is COM and a digit, at most as many as the array has entries, in the order of the system, with their names and friendly names in UTF-8 cut to the size of the fields; cio_uart_get_number_of_uarts counts them, so that an array of that size takes all. cio_uart_init holds exactly the handle of the port if it succeeds. All memory, registry keys, device lists and handles obtained otherwise are given back exactly once.",
  "every device list, every content of the registry and of memory, every failure of a system call or allocation",
  "Memory behind a buffer and the failure of single system calls cannot be chosen by a test; leaks and double frees stay invisible.",
  ["lib/src/platform/windows/uart.c: get_string_value_from_registry, is_com_port, get_device_property, cio_uart_get_number_of_uarts, cio_uart_get_ports, cio_uart_init, cio_uart_get_name"])
p("What one websocket endpoint sends, the other one gets",
  "If a client and a server that both use this library are connected by a reliable byte stream, the messages the application on one side gets are, in order, with their type and byte for byte, the first of the messages the application on the other side wrote with cio_websocket_write_message_first_chunk; when everything was read and no error occurred it got all of them, including those written just before the close. The same holds for pings, and the pongs an application sees carry the payloads of its own pings in the order in which they were sent. With a working transport no error occurs.",
  "every pair of runs of a client and a server, every cutting of the byte stream, every interleaving, fragmentation and mask",
  "The property relates two unbounded runs and all ways a network can cut and delay the bytes between them.",
  ["lib/src/websocket.c: cio_websocket_write_message_first_chunk, cio_websocket_write_ping, cio_websocket_read_message, send_frame, handle_frame, handle_ping_frame"])
p("Random numbers come from the system's entropy, or the failure is reported",
  "cio_random_seed_rng reports success exactly if the system delivered 16 bytes of entropy; the numbers generated afterwards are those of the PCG generator with these bytes as seed and stream, and two different deliveries give different generators (all bits but one count). Whenever the entropy function succeeds, every byte of the caller's memory is fresh, for every size, and otherwise an error is reported; no platform reports success for memory that was not filled.",
  "every platform, every size, every answer of the system, every previous content of the memory",
  "Failures of the entropy source and large sizes cannot be produced in tests, and a test cannot tell fresh from stale memory.",
  ["lib/src/random.c: cio_random_seed_rng","lib/src/platform/linux/random.c: cio_entropy_get_bytes","lib/src/platform/windows/random.c: cio_entropy_get_bytes","lib/src/platform/zephyr/random.c: cio_entropy_get_bytes"])
p("Event loops and sockets on Windows are set up completely or not at all, with the options asked for",
  "On Windows, an init function of event loop, socket or server socket that succeeds has created exactly the kernel objects of that object, and the socket reports to the loop it was made for; one that fails reports an error, leaves nothing behind and calls no user function. When everything is destroyed nothing is left. Options have in the kernel the value that was last set with success (keep-alive times in seconds), and the address family of a socket is the one it was made with.",
  "every history of creations, settings and destructions, every set of failing system calls",
  "The property ranges over all histories and all places where a system call can fail.",
  ["lib/src/platform/windows/iocp.c: cio_eventloop_init, cio_eventloop_destroy","lib/src/platform/windows/socket_utils.c: cio_windows_socket_create","lib/src/platform/windows/socket.c: cio_socket_init, cio_socket_set_tcp_no_delay, cio_socket_set_keep_alive, cio_socket_get_address_family","lib/src/platform/windows/server_socket.c: cio_server_socket_init, cio_server_socket_set_reuse_address, cio_server_socket_set_tcp_fast_open"])
p("Packets and buffers do not matter to a websocket",
  "A websocket that reads through a buffered stream consumes every byte that arrives exactly once and in order, whatever packets the transport delivers. Its application gets the first messages (and pings) its peer wrote, in order and unchanged; when everything that arrived is worked off and it still waits, a read is in progress with room for at least one byte and what is buffered is not enough to go on with. If all the peer's bytes have arrived it has all messages, nothing is left in the buffer and no error was raised. An error it is given is one the transport reported: its read buffer never is too small.",
  "every run of the two endpoints, every cutting of the bytes into packets, every size of the read buffer (at least 125 bytes for the absence of errors), every result of the transport",
  "Tests replace the buffered stream by a stub that hands over whole frames; the combinations of packet boundaries, buffer positions and callbacks cannot be enumerated.",
  ["lib/src/websocket.c: cio_websocket_read_message, get_header, get_payload","lib/src/buffered_stream.c: run_read, fill_buffer, handle_read, internal_read_at_least, internal_read_max","lib/include/cio/read_buffer.h"])
p("A websocket's bytes reach the wire once, and two endpoints understand each other through their streams",
  "A websocket that writes through a buffered stream never starts a write while another is in progress. What the socket has taken is always the beginning of what the websocket has written - nothing lost, repeated or reordered, however few bytes the socket takes at a time - and all of it once no write is in progress. With such streams at both ends the peer's application gets the first messages and pings, in order, and all of them once everything has left and arrived.",
  "every run of both endpoints, every number of bytes the transport takes or delivers at a time, every layout of the chains in memory",
  "Tests give the websocket a stub stream that takes whole chains; where a socket stops taking bytes depends on its buffers and the peer's speed.",
  ["lib/src/websocket.c: send_frame, message_written, enqueue_job","lib/src/buffered_stream.c: cio_buffered_stream_write, handle_first_write, handle_partial_writes, handle_write","lib/src/write_buffer.c"])
p("HTTP responses reach the client in order, each once and complete",
  "The HTTP server never starts writing a response while another is being written. What a client's connection has taken is always the beginning of the well-formed responses the server has made, one after the other, however few bytes the socket takes at a time, and all of them once no write is in progress; a socket that goes on taking bytes completes the response.",
  "every run of an application and a peer that keep the rules of C34, every number of bytes the transport takes at a time, every layout of the responses in memory",
  "Tests give the server a stub stream that takes whole chains; where a socket stops taking bytes depends on its buffers and the peer's speed.",
  ["lib/src/http_server.c: flush, response_written, restart_read_request","lib/src/buffered_stream.c: cio_buffered_stream_write, handle_first_write, handle_partial_writes, handle_write","lib/src/write_buffer.c"])
p("A cancelled event loop stops, and no event loop stops or loses events otherwise",
  "cio_eventloop_run goes on until the loop is cancelled, and hands over what happens in order, each event once. After a cancel, from a callback or from another thread, it returns without going on with further events (at most one callback on Windows, the rest of what was reported at once on Linux, nothing put after the cancel on Zephyr), and it always notices the cancel. A loop that was cancelled can be run again and hands over what is still to be handed over.",
  "every interleaving of the loop, the kernel and any number of threads that put events or cancel, every history of runs and cancels",
  "The moment at which a cancel from another thread falls - between a check and a wait, between emptying the queue and filling it - cannot be chosen in a test.",
  ["lib/src/platform/windows/iocp.c: cio_eventloop_run, cio_eventloop_cancel","lib/src/platform/linux/epoll.c: cio_eventloop_run, cio_eventloop_cancel","lib/src/platform/zephyr/eventloop.c: cio_eventloop_run, cio_eventloop_cancel, cio_zephyr_eventloop_add_event, cio_zephyr_eventloop_remove_event"])
p("An HTTP server serves when it says so, and leaves nothing behind",
  "cio_http_server_serve reports success only if the listening socket is bound, listening, may reuse its address and is waiting for connections; on a correctly initialised server it succeeds when no system call fails. A failing cio_http_server_init or cio_http_server_serve leaves no socket behind. cio_http_server_shutdown releases everything the server has in the kernel and calls its close hook once, after everything was released. No socket is used or closed that is not open.",
  "every history of init, serve and shutdown, every set of failing system calls, every configuration, on Linux, Windows and Zephyr",
  "A test sees one platform and working system calls; each of the system calls would have to be made to fail, in every state and on three operating systems.",
  ["lib/src/http_server.c: cio_http_server_init, cio_http_server_serve, cio_http_server_shutdown, server_socket_closed","lib/src/platform/linux/server_socket.c: cio_server_socket_init, cio_server_socket_bind, cio_server_socket_accept, cio_server_socket_close","lib/src/platform/windows/server_socket.c: cio_server_socket_init, cio_server_socket_bind, cio_server_socket_accept, cio_server_socket_close, try_free, close_listen_socket, prepare_accept_socket","lib/src/platform/zephyr/server_socket.c: cio_server_socket_init, cio_server_socket_bind, cio_server_socket_accept, cio_server_socket_close, cio_server_socket_set_reuse_address","lib/src/platform/zephyr/socket_utils.c: cio_zephyr_socket_create"])
p("A location handler is told the URL of a request, part by part",
  "The handler of the location that answers the path of a request is told the parts of the URL it set callbacks for - schema, host, port, path, query, fragment, in this order, each with exactly its bytes - and then the whole URL, each once, until it writes a response or reports an error, which stops the parser. Callbacks that are not set and parts that are missing are left out. A request without a location is answered with 404; one without a handler, or with a handler that has no free function or no callback at all, with 500; no callback is called then. Nothing outside of the URL is read.",
  "every URL and every way http_parser divides it, every history of registered locations, every set of callbacks, every behaviour of the application in them",
  "The number of combinations of parts, callbacks, answers and errors is out of reach for tests.",
  ["lib/src/http_server.c: on_url, call_url_parts_callback, data_callback, path_in_url, handle_server_error, find_location","lib/src/http_location_handler.c: cio_http_location_handler_init, cio_http_location_handler_no_callbacks"])
with open('/verif/properties.jsonl','w') as f:
    for q in P: f.write(json.dumps(q)+"\n")
print(len(P))
