# Formal model of gatzka/cio in Rocq (Coq 8.16.1)

What is modelled, how each property of `properties.jsonl` is stated and proved, what is trusted, what is left
out, and what the model showed to be wrong in the code.

## 1. Approach

* The model is executable Gallina: total functions over `list`, `nat`/`N`/`Z`, records, `option` and, for pointer
  structures, finite maps from addresses.  Every definition carries a comment citing the file and lines it models and the
  simplifications made.
* Undefined behaviour (out-of-bounds access, NULL dereference, call of an unset callback, use of a released object,
  re-entering http_parser) is a distinct outcome `UB` of the model's `outcome` monad (`Base.v`), never a default value.
* System calls, the transport, http_parser (an absent git submodule), timers and user callbacks are oracles: universally
  quantified results, choices or scripts.  The reactive components (buffered stream, websocket, HTTP server, epoll loop,
  timer, socket, server socket, UART) are machines `state x stack of pending code`: a step executes one piece of code
  between two points at which foreign code (application, transport, kernel) can act; a callback is a stack entry during
  which the application may call any API function any number of times, so re-entrancy is part of the model.
  `reach` is the set of all configurations reachable by enabled steps, without bound on length, sizes or nesting.
* Files of a component `X`: `XModel.v` (follows the C code), `XSpec.v` (independent specification: RFC grammar, trace
  predicates, obligations of the caller), `XProofs.v` and further files (invariants), `XProps.v` (theorems named in the
  manifest, each with examples that meet its hypotheses).
* Where the code violates a property the strongest true part is proved for all executions, and a theorem
  `..._refuted` exhibits a concrete reachable violation in the model.  Such properties have status `partial`; the
  manifest's note starts the defect with VIOLATED.  The hypotheses that exclude defects are always predicates on what the
  *environment* does (`careful`, `orderly`, `polite`, `guarded`, `whole_frames`, ...), defined in the `Spec` files and shown to be met by
  examples.

## 2. Properties, model and proof

| Property | Modelled code | Specification | Proof, files |
|---|---|---|---|
| C01, C02 | `utf8_checker.c`: table, `decode`, `cio_check_utf8` with its byte and word loops, parametrised by address and word size | RFC 3629: encodings of scalar values (`Utf8Spec.v`) | every DFA state is characterised by the set of completions; induction over the bytes and loops (`Utf8Proofs.v`, `CodecProps.v`) |
| C03 | `base64.c` | RFC 4648 on bits (`Base64Spec.v`) | induction by groups of three bytes |
| C04 | `websocket_masking.h`, all alignments, word sizes 1, 2, 4, 8 | byte-wise xor (`MaskSpec.v`) | induction over words |
| C05 | `sha1.c` (streaming context, block, counters) | FIPS 180 over the padded message (`Sha1Spec.v`) | invariant of the context over any split |
| C06 | `endian.c` for both byte orders, and of Windows and Zephyr | digits in base 256 (`EndianSpec.v`) | arithmetic |
| C07 | `string_memmem.c` | first occurrence (`MemmemSpec.v`) | induction |
| C08, C09, C48 | `write_buffer.h`: doubly linked ring on a heap | programs over lists (`WriteBufferSpec.v`) | representation predicate, refinement (`WriteBufferProofs.v`, `ChainProps.v`) |
| C10-C14, C17 | `buffered_stream.c`, reading half and close | the stream as a byte list, requests and answers as a trace (`BufReadSpec.v`) | invariant: offered ++ unread ++ to come = stream (`BufReadProofs.v`, `BufReadProps.v`) |
| C15, C16 | `buffered_stream.c`, writing half on the heap of C08 | bytes of chains (`BufWriteSpec.v`) | refinement to lists (`BufWriteProofs.v`, `BufWriteProps.v`) |
| C18 | header builder of `send_frame` | RFC 6455 header grammar (`WsHeaderSpec.v`) | `WsSendProofs.v` |
| C19, C29 | whole sending path of `websocket.c` | RFC 6455 frame decoder and fragmentation rules (`WsFrameSpec.v`, `WsCodec.v`) | invariants on bytes handed to the stream (`WsWire.v`, `WsFrame.v`, `WsFrames.v`, `WsRefuse.v`, `WsFrameProps.v`) |
| C20-C25 | receiving half of `websocket.c` | RFC 6455 parsing of the received bytes, status codes (`WsRecvSpec.v`) | history invariant over every reachable configuration (`WsHistory.v`, `WsRecvReach.v`, `WsRecvProps.v`, `WsRecvProps2.v`, `WsDecode.v`, `WsVerdict.v`) |
| C54 | receiving half, pong job | trace predicates | `WsLive.v`, `WsLive2.v`: invariant over every reachable configuration |
| C55 | answer to close frames | `close_answer` in `WsAnswer.v` | trace invariant (`WsAnswer.v`) |
| C56 | job queue, completions, failure | `WsOutSpec.v`: accepted, sent, reported | `WsResult.v`: trace invariants |
| C26 | close machinery of `websocket.c` | trace predicates (`WsClose.v`) | `WsClose.v`, `WsCloseProps.v` (no error), `WsCloseErr.v`, `WsCloseErrProps.v` (errors, no local close) |
| C27, C28 | job queue of `websocket.c` | queue of write requests (`WsOutSpec.v`) | `WsQueue.v`, `WsOut*.v`, `WsRefuse.v` |
| C30-C32 | `websocket_location_handler.c` with the SHA-1 and base64 models | RFC 6455 4.2, RFC 7230 lists (`HandshakeSpec.v`) | `HandshakeProofs.v`, `HandshakeProps.v` |
| C33 | `cio_http_server_register_location`, `location_match`, `find_handler` | longest prefix of segments (`RouteSpec.v`) | `RouteProps.v` |
| C34-C36, C53 | `http_server.c` client state machine | `HttpSpec.v`: response grammar, histories | `HttpProofs.v` (one response at a time), `HttpSafe*.v` (no undefined behaviour), `HttpKeep.v`, `HttpPipe.v`, `HttpGuard.v`, `HttpProps*.v` |
| C37, C38 | `epoll.c` | traces (`EpollSpec.v`) | `EpollProofs.v`, `EpollProps.v` |
| C39, C40 | `timer.c` | traces (`TimerSpec.v`) | `TimerProofs.v`, `TimerProps.v` |
| C41, C42, C49 | `socket.c` | traces (`SocketSpec.v`) | `SocketProofs.v`, `SocketProps*.v` |
| C43 | `server_socket.c` accept path | traces (`AcceptSpec.v`) | `AcceptProps.v` |
| C44 | `random.c` | PCG (`RandomSpec.v`) | laws modulo 2^64 (`RandomProofs.v`) |
| C45, C50 | address constructors, `cio_server_socket_bind` | equalities on bytes | `AddressProps.v` |
| C57-C59 | `socket_utils.c`, init/close/option functions of `timer.c`, `socket.c`, `server_socket.c`, `epoll.c`, `uart.c`, init/serve/shutdown of `http_server.c`, against a kernel of descriptors in which each call may fail | `ResSpec.v`: histories, owned descriptors | specification of each function, invariant over histories (`ResProofs.v`, `ResProofs2.v`, `ResProps.v`, `ResThms.v`) |
| C60 | `uart.c`: `cio_uart_get_number_of_uarts`, `cio_uart_get_ports` with their character arrays | `EnumProps.v`: links of a directory | specification of each C string function, induction over the entries |
| C61 | `zephyr/timer.c`, `zephyr/eventloop.c` (queue of 10 entries) | traces (`ZephyrTimerSpec.v`) | `ZephyrTimerProofs.v`: invariant over every reachable configuration; `ZephyrTimerProps.v` |
| C62 | `zephyr/socket.c` | traces, phases of a connection (`ZephyrSocketSpec.v`) | invariant over every reachable state (`ZephyrSocketProps.v`) |
| C63 | `zephyr/server_socket.c` | traces, phases of a server (`ZephyrServerSpec.v`) | invariant over every reachable configuration (`ZephyrServerProps.v`) |
| C64 | `windows/socket.c`, `windows/iocp.c` | traces, phases of the two directions (`WinSocketSpec.v`) | invariant over every reachable configuration (`WinSocketProps.v`) |
| C65 | `windows/timer.c` | traces, armed / due (`WinTimerSpec.v`) | invariant over every reachable configuration (`WinTimerProps.v`) |
| C66 | `windows/server_socket.c` | traces, owned sockets (`WinServerSpec.v`) | invariant over every reachable configuration (`WinServerProps.v`) |
| C67 | `windows/uart.c`, settings | the line as seen by the other end (`WinUartConfSpec.v`) | every DCB, every history of calls (`WinUartConfProps.v`) |
| C68 | `windows/uart.c`, stream | traces (`WinUartSpec.v`) | invariant over every reachable configuration (`WinUartProps.v`) |
| C69 | `windows/uart.c`, enumeration and init | registry strings, resources held (`WinUartEnumSpec.v`) | induction over the device list (`WinUartEnumProps.v`) |
| C70 | both halves of `websocket.c`, two endpoints | messages written and messages received (`WsPairSpec.v`) | the frames of C29 through the decoder of C20 (`WsPairProofs.v`, `WsPairProps.v`) |
| C71 | `random.c` of the library and of the three platforms | answers of the system, freshness (`EntropySpec.v`) | case analysis, and injectivity of the seeding (`EntropyProps.v`) |
| C72 | `windows/iocp.c`, `socket_utils.c`, set-up and options in `windows/socket.c` and `server_socket.c` | histories of calls and results (`WinSetupSpec.v`) | invariant relating the kernel to the history (`WinSetupProps.v`) |
| C73 | `websocket.c` reading through `buffered_stream.c` and `read_buffer.h` | messages written by the peer and messages received (`WsPairSpec.v`), bytes delivered | the composed system simulates `WsModel` (`WsStreamProofs.v`); a reading request that cannot be answered leaves the decoder of C20 inside a frame (`WsStreamProps.v`) |
| C74 | `websocket.c` writing through `buffered_stream.c` and `write_buffer.c`; both endpoints through both streams | bytes the socket took, messages written by one side and received by the other | the composition's invariant: at most one write in progress, what it has sent is a prefix of its chain (C15), the rest is on the wire (`WsOutStreamProps.v`); then C73 |
| C75 | `http_server.c` writing through `buffered_stream.c` and `write_buffer.c` | responses made, bytes the socket took | the composition's invariant as for C74, from the invariant that at most one write is in progress (C35) and C34 (`HttpWireProps.v`) |
| C76 | `iocp.c`, `epoll.c`, `zephyr/eventloop.c`: run and cancel, with the threads and the kernel around them | traces of completions, puts, cancels, callbacks, returns | invariants over every interleaving, splitting a run at the cancel (`WinLoopProps.v`, `ZephyrLoopProps.v`); `EpollStopProps.v` on the machine of C37 |
| C77 | init, serve and shutdown of `http_server.c` on `linux/`, `windows/` and `zephyr/server_socket.c`, `socket_utils.c`, every system call may fail | the life of a server read from the results the application sees (`phase_of`), the kernel's sockets | invariant over histories (`HttpStartProps.v`); serve's result by cases over every path |
| C78 | `http_server.c` on_url with the routing of C33, `http_location_handler.c` | the calls a handler expects for an URL (`expected`), when a call ends the dialog (`ends`), usable handlers | induction over the parts (`UrlProps.v`) |
| C46, C47, C51, C52 | `uart.c` settings, stream, close | bit fields, traces | `UartProps.v` |

For each property `MANIFEST.json` names the theorems and says what is missing.  Every property could be expressed in a model; none is
`not_applicable`.

## 3. Trusted base

* Coq 8.16.1's kernel, including its virtual machine (`vm_compute` is used in examples and finite case checks).
* `Print Assumptions` says `Closed under the global context` for **every** theorem of the manifest: no axioms, neither own nor from
  the standard library.  Only the standard library is used.  (Loading `lia` loads `Coq.ssr.ssrunder`, whose module type declares
  parameters such as `Under_rel`; no theorem depends on them.)
* The reading of C by which the model was written.  In particular:
  * integer widths: `uint64_t`/`size_t` 64 bit; truncations are written out with `mod 2^n` where they can matter;
  * glibc's byte-order macros swap or keep bytes; `memmem`, `memcmp`, `strncasecmp` (C locale), `snprintf` behave as documented;
  * kernel contracts: an epoll batch contains each registered notifier at most once; `tcsetattr` stores exactly the given flags;
    `cfsetspeed` sets both speeds; termios flag values and sockaddr layouts of Linux x86-64;
  * http_parser: the order of callbacks (`HttpModel.parser_order`), header values consist of bytes 1-255, a line may end with a
    bare LF, the parser stops after a callback error;
  * user callbacks run to completion on the event loop's thread and only call the modelled API functions.
* Not modelled: the compiler, memory consumption and allocation failures outside the points named in the models, of the Windows and Zephyr ports
  `string.c`, `version.c`, `http_location.c` (used through its fields), the examples.

## 4. Simplifications

* Data handed over by reference is copied at the point where the code reads it; where the code keeps a pointer and reads
  later (websocket write jobs, buffered stream chains) the model keeps the chain itself.
* One machine per connection; machines do not share state except through the event loop, which is modelled separately.
* The buffered stream under websocket and HTTP server is an oracle with the behaviour proved for it in C10-C17 (and it may fail
  at any call); the socket under the buffered stream is an oracle. C73 puts the reading half of the real buffered stream under the
  websocket; there the application is supposed to close the stream in the close hook, and the transport completes reads from the
  event loop (it never calls back out of read_some). C74 does the same for the writing half; the content of a chain is matched by its
  bytes (the addresses of the elements are arbitrary), and a transport that completes a write inside the call does so before the
  websocket goes on. C75 puts the writing half under the HTTP server in the same way.
* Timer durations matter only as armed/not armed in the machines that use timers.

## 5. Mutation testing

`seeded/LOG.jsonl` lists the edits that were made to scratch copies of the models: the definition, the edit, the claim that becomes
false, the manifest theorems that no longer prove, and the theorems that were tightened because of it.  A theorem counts as failed when
its own proof or a lemma it uses breaks (after admitting the broken ones and rebuilding what depends on them).

## 6. Defects found in the code

Proved as `_refuted` theorems unless marked (read) = seen while reading, not part of a theorem.

* websocket.c `handle_close_frame` (450): the last two bytes of a close reason are never UTF-8-checked, a one-byte reason is over-read (C25).
* websocket.c `handle_text_frame` (408): a final frame that arrives in chunks is rejected when a chunk ends inside a character (C22).
* websocket.c `send_frame` (168-170): on a client the mask of continuation chunks is rotated twice, the payload is garbled (C19).
* websocket.c `message_written` (299): a queued first chunk of a frame is sent with a header that announces the length of the chunk (C29).
* websocket.c `write_jobs_popfront`/`remove_websocket_header` (77-80, 283): for continuation chunks, which have no header, the first payload element is removed from the caller's buffer (C19).
* websocket.c: automatic pongs are inserted between the chunks of one frame (C29).
* websocket.c: continuation frame without start, more bytes than declared, a new message inside an unfinished frame, over-long close reasons (truncated) are accepted; a continuation chunk overwrites the queued one (C28).
* websocket.c: non-minimal lengths and lengths above 2^63-1 are accepted (C21).
* websocket.c `handle_ping_frame`: overwrites the pong job when the application's own pong is in flight (C23).
* websocket.c `message_written`: a pong's write error with another job queued is undefined; `abort_write_jobs` aborts the job in flight and sends the close frame concurrently; after a close timeout pending handlers are never called (C27).
* websocket.c close: a local close followed by an error calls the hook twice and sends two close frames; crossing closes forget pending write handlers; a pong-written handler that reads the crossing close sends after the hook; a ping during a local close makes the pong's abort look like an error (C26).
* websocket.c `abort_write_jobs` (read, visible in `failing_history`): the header element is not removed, so the handler of an aborted first chunk gets its buffer back with the header of the library still in front.
* websocket.c (read): `cio_websocket_write_ping/pong` with a NULL payload dereferences it; `cio_websocket_close` leaves its write handler set when the timer cannot be created or armed, so that it can never be retried; writing from an aborted handler during `close_frame_written` pops an empty queue.
* buffered_stream.c `handle_partial_writes` (243): data sent twice when the first partial write ends in the last element (C15); a later synchronous write error leaves the caller's chain cut (C16).
* buffered_stream.c `fill_buffer`: a read started in the handler of a failed read is lost (C14); a second close closes the underlying stream again (C17); (read) `read_at_most` with 0 reports 0 bytes, which means end of file.
* timer.c: re-arming or closing in a handler called with OPERATION_ABORTED is undefined, a zero timeout never fires, re-arming drops the first handler (C39).
* epoll.c: EPOLLERR/EPOLLHUP without EPOLLIN/EPOLLOUT reach no callback (C38); (read) the stop eventfd is never drained.
* http_server.c: handlers of pipelined requests leak, pipelined GETs are parsed early (C35, C36); alloc_handler failure then 500 dereferences NULL; close in the response-written callback; write completion after close; accept failure calls free_client(NULL) (C36).
* http_server.c: early responses announce keep-alive although the request says close; after an asynchronous 101 the server frees the handler and reads HTTP again; an Upgrade request answered normally is never followed by a read; content lengths of 10^10 and more are truncated or over-read; a failing response timer reports success with nothing sent (C34); a handler that skips the body of an ordinary request leaves the connection without a timer (C53); (read) a CR|LF split can stall a header line.
* uart.c: data bits are or-ed without clearing CSIZE (C46); bytes written before EAGAIN are not reported (C47); a read request is answered many times, data before the first request calls an unset callback (C51); the port is used after its close hook (C52); `cio_uart_init` leaks the descriptor when tcgetattr fails (C57).
* http_server.c `cio_http_server_init`: the listening descriptor leaks when TCP fast open cannot be set; `cio_http_server_shutdown` after a failed `cio_http_server_serve` closes its descriptor twice (C57); (read) a header timeout of 10^9 seconds or more is refused with NO_BUFFER_SPACE.
* timer.c, epoll.c: timerfd and eventfd are created without CLOEXEC (C58).
* socket.c: EAGAIN after readiness forgets the request, a full buffer is reported as end of file, a second read or a write while connecting drops a request (C41); peer data during a graceful close ends in a reset (C49); a tiny close timeout leads to a use after free (C42).
* server_socket.c `accept_callback`: uses the server socket after an error handler closed it (C43).
* unix_address.c: the empty path is over-read (C45).
* write_buffer.h `cio_write_buffer_is_last_element` tests for the first element (C48).
* websocket_location_handler.c: a handler without subprotocols refuses clients that offer some (C31, example); (read) the value of the Upgrade header is never checked; the documentation allows `location_handler_free == NULL`, init rejects it.
* zephyr/timer.c, eventloop.c: closing or re-arming a timer between its expiry and the dispatch of its event uses it after the hook or calls a NULL handler; `cio_eventloop_cancel` drops queued events; the queue has 10 entries and overflows silently or asserts; durations are truncated to a signed 32 bit number of milliseconds (C61).
* zephyr/socket.c: one notifier for reading and writing, so that a read and a write at the same time confuse their handlers; the end of a packet larger than the read buffer is dropped; the notifier is not removed on close (C62).
* zephyr/server_socket.c: one slot for new connections: a second connection before the dispatch replaces the first, which leaks, and is handed out twice; use after the hook when closed in the NO_MEMORY handler or with a queued connection; the result of net_context_accept is ignored (C63).
* windows/socket.c: a completion that is already queued at the close (or a pending connect) calls its handler after close, and the close hook is then never called; ConnectEx succeeding at once leaves a completion that calls an unset write handler; a full read buffer reads as end of stream (C64).
* windows/timer.c: cio_timer_init leaves the handler uninitialised, so closing or cancelling an unarmed timer is undefined; close or re-arm between expiry and dispatch, and close or re-arm in the aborted handler, end in a use after the hook or a call of NULL; timeouts wrap at 2^32 ms (C65).
* windows/server_socket.c: the hook of a bound server without a pending accept is never called; a connection leaks when setsockopt or the next AcceptEx fails, and accepting stops silently; a failing init runs the close path on an uninitialised counter (C66).
* windows/uart.c: set_flow_control returns CIO_SUCCESS and does nothing (C67); the buffer given to an overlapped WriteFile is freed at once; the error of a write is negated twice; an idle line is reported as the end of the stream (C68).
* windows/uart.c: a failing cio_uart_init frees the name buffer twice, friendly names leak, WideCharToMultiByte gets a byte count for a character count, RegCloseKey is called twice on errors (C69).
* zephyr/random.c: the result of entropy_get_entropy and a missing device are ignored, so that websocket masks can come from uninitialised memory; zephyr/random.c and windows/random.c cut the size to 16 and 32 bits (C71).
* windows/socket.c `cio_socket_init` reports -errno, which Winsock does not set, so that it may report success without a socket; keep-alive seconds are set as milliseconds; `cio_socket_get_address_family` fails for sockets that are not connected; windows/iocp.c reports the error of WSAStartup as a positive number; windows/server_socket.c: a failing init calls the close hook (C72).
* windows/endian.c (read): the branch for big-endian machines, never compiled, does not compile (wrong parameter names) and truncates in `cio_htobe32`.
* websocket.c on buffered_stream.c (the defect of C15 seen end to end): when the socket first takes all but the end of the last buffer of a frame, the frame is sent twice; the peer's application gets the message twice and neither side reports an error (C74).
* http_server.c on buffered_stream.c (the defect of C15 seen end to end): when the socket first takes all but the end of the last buffer of a response, the whole response is sent again; the client takes the second copy for the answer to its next request (C75).
* A cancelled event loop cannot be run again: windows/iocp.c never sets `go_ahead` again, linux/epoll.c never reads the eventfd (and events behind the stop event in a batch may starve for ever); zephyr/eventloop.c drops the queued events instead (C76).
* windows/iocp.c ignores the result of PostQueuedCompletionStatus in cancel: a waiting loop may never notice (C76).
* zephyr/eventloop.c: the loop's thread waits for ever when it puts an event into its own full queue, also within `cio_eventloop_cancel` when interrupts fill the queue between the purge and the put; an event put before its notifier was removed is dispatched once the notifier is initialised again (C76).
* zephyr/server_socket.c: `cio_server_socket_set_reuse_address` always returns OPERATION_NOT_SUPPORTED, so that `cio_http_server_serve` fails: no HTTP server can serve on Zephyr; with TCP fast open init fails as well and leaks the socket (C77).
* http_server.c on windows/server_socket.c: a failing AcceptEx in serve closes the accept socket twice; a failing WSAIoctl in init leaves the listening socket open if the memory was not zeroed; after a shutdown the port stays bound until the loop runs (C77).
* http_server.c: header timeouts whose seconds, taken modulo 2^32, need ten digits are refused with NO_BUFFER_SPACE although the buffer has room for them (C77).
* http_server.c `on_url` (read): a handler that alloc_handler returned without a free function is answered with 500 and forgotten, so that it leaks; the return value CIO_HTTP_CB_SKIP_BODY of the callback for the whole URL stops the parser as an error, that of the callbacks for its parts is ignored (C78).
