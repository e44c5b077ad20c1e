{"id": "C01", "title": "Room membership is one relation", "statement": "After any history of joins, leaves and leave-alls on a namespace's adapter, the two public views of membership (the rooms a socket is in; the sockets a room contains) agree with each other and with the history: a socket is in a room exactly when it joined it and has not left it (individually or by leaving everything) since. A room is listed exactly when it has a member.", "quantifier": "every finite sequence of AddAll/Del/DelAll calls, every iteration order of the Go maps involved", "why_tests_cant": "Needs every history: a test fixes one sequence of operations and one map order.", "anchors": ["socket/adapter.go: AddAll, Del, _del, DelAll, Rooms, Sids, SocketRooms"]}
{"id": "C02", "title": "Room lifecycle events replay to the membership", "statement": "The create-room, join-room, leave-room and delete-room events emitted by the adapter form a faithful log: replaying them from scratch never meets an impossible event (joining a non-existing room, creating twice, deleting a non-empty room, leaving without being a member) and yields exactly the current members of every room.", "quantifier": "every finite sequence of AddAll/Del/DelAll calls", "why_tests_cant": "The log has to be correct for every history, and every wrong event is only visible on some of them.", "anchors": ["socket/adapter.go: AddAll, _del (Emit calls)"]}
{"id": "C03", "title": "A broadcast reaches exactly the targeted sockets", "statement": "Emitting with a set of rooms and a set of excluded rooms writes the packet to exactly the sockets of the namespace that are in at least one target room (or to all of them if no room was given) and in none of the excluded rooms. AllSockets and FetchSockets use the same rule for their rooms.", "quantifier": "every reachable membership state, every rooms/except sets, every map iteration order", "why_tests_cant": "Quantifies over all states and all target sets.", "anchors": ["socket/adapter.go: apply, computeExceptSids, Broadcast, Sockets, FetchSockets"]}
{"id": "C04", "title": "A client is notified at most once per broadcast", "statement": "However many of the target rooms a socket belongs to, one broadcast writes its packet to that socket exactly once.", "quantifier": "every reachable state, every (overlapping) set of rooms, every iteration order", "why_tests_cant": "Overlap patterns are unbounded.", "anchors": ["socket/adapter.go: apply; socket/broadcast-operator.go: To doc comment"]}
{"id": "C05", "title": "Bulk operations act on the sockets that matched at the call", "statement": "SocketsJoin, SocketsLeave and DisconnectSockets applied to a selection change exactly the sockets that matched when the call started, even though the callbacks modify the membership tables while they are being iterated: afterwards the membership relation is the old one plus (minus) the matched sockets times the given rooms, or without the matched sockets, and nothing else changed.", "quantifier": "every reachable state, every selection and rooms argument (including rooms that are part of the selection itself), every iteration order", "why_tests_cant": "The interesting cases are mutations during iteration in an arbitrary map order.", "anchors": ["socket/adapter.go: AddSockets, DelSockets, DisconnectSockets, apply"]}
{"id": "C06", "title": "Sender exclusion", "statement": "socket.To/In/Except/Broadcast/Local(...).Emit never reaches the emitting socket and socket.To(rooms) reaches every other member of the rooms.", "quantifier": "every reachable state and every chain of modifiers", "why_tests_cant": "All states and chains.", "anchors": ["socket/socket.go: newBroadcastOperator, To, Except, Broadcast"]}
{"id": "C07", "title": "Broadcast operators are persistent values", "statement": "Building a new operator with To/In/Except/Compress/Volatile/Local/Timeout never changes what an existing operator targets; the target of a chain is the union of all To rooms, minus the union of all Except rooms, independent of the order of the calls, with the last value for each modifier.", "quantifier": "every chain of operator calls and every later use of any intermediate operator", "why_tests_cant": "Aliasing between intermediate operators must be excluded for every chain.", "anchors": ["socket/broadcast-operator.go: Construct, To, Except, Compress, Volatile, Local, Timeout"]}
{"id": "C08", "title": "Reserved event names are rejected without effect", "statement": "Emitting a reserved event name through a socket, a broadcast operator or ServerSideEmit returns an error and has no effect; every other name is accepted.", "quantifier": "every event name, every argument list, every state", "why_tests_cant": "All strings.", "anchors": ["socket/socket.go: Emit, SOCKET_RESERVED_EVENTS; socket/broadcast-operator.go: Emit; socket/namespace.go: ServerSideEmit, NAMESPACE_RESERVED_EVENTS"]}
{"id": "C09", "title": "Modifiers apply to the next emission only", "statement": "Compress/Volatile/Timeout set on a socket affect exactly the next emission (or the next broadcast operator created from it) and are then forgotten.", "quantifier": "every sequence of modifier, emit and broadcast-operator calls on a socket", "why_tests_cant": "All call sequences.", "anchors": ["socket/socket.go: Emit, Compress, Volatile, Timeout, newBroadcastOperator"]}
{"id": "C10", "title": "An acknowledgement callback is called at most once, and exactly once with a timeout", "statement": "The callback passed to socket.Emit is called at most once; with a Timeout it is called exactly once: with the client's reply if it arrives first, otherwise with an error, and never with both.", "quantifier": "every order of replies (also duplicated or forged ones), timer expiry and disconnection; every goroutine schedule", "why_tests_cant": "Racing reply and timer; duplicated replies.", "anchors": ["socket/socket.go: registerAckCallback, onack"]}
{"id": "C11", "title": "Acknowledgements are routed by socket and id", "statement": "A reply is delivered to the callback that was registered on that same socket for that very packet id and to no other; ids never collide between pending emissions of a namespace; replies with unknown ids are ignored.", "quantifier": "every history of emissions with acknowledgement and incoming replies on any number of sockets (fewer than 2^64 emissions)", "why_tests_cant": "All histories of interleaved emissions.", "anchors": ["socket/namespace.go: Ids; socket/socket.go: Emit, onack; socket/adapter.go: BroadcastWithAck"]}
{"id": "C12", "title": "The server answers a client event at most once", "statement": "However often and from however many goroutines a handler calls the acknowledgement function it was given, at most one ACK packet is sent for the event, with the event's id and the arguments of one of the calls.", "quantifier": "every number of calls, every goroutine interleaving", "why_tests_cant": "All schedules.", "anchors": ["socket/socket.go: ack"]}
{"id": "C13", "title": "Broadcast with acknowledgement collects one reply per client", "statement": "The callback of a broadcast with acknowledgement is called at most once; it is called without error only when every server has reported its number of clients and every notified client has replied, and then receives one entry per client; otherwise it is called with an error when the timeout expires, with the replies received so far.", "quantifier": "every order of client replies, server counts and timer expiry; any number of clients, servers and reply arguments", "why_tests_cant": "All orders and all reply shapes.", "anchors": ["socket/broadcast-operator.go: Emit; socket/adapter.go: BroadcastWithAck; adapter/cluster-adapter.go: BroadcastWithAck"]}
{"id": "C14", "title": "RemoteSocket.Emit with acknowledgement behaves like Socket.Emit", "statement": "Emitting with acknowledgement through a RemoteSocket calls the callback with the reply arguments of that client (or with a timeout error) and never crashes the server.", "quantifier": "every reply, every state of the remote client (including already disconnected)", "why_tests_cant": "All reply shapes and all states.", "anchors": ["socket/remote-socket.go: Emit, Construct; socket/broadcast-operator.go: Emit (ExpectSingleResponse)"]}
{"id": "C15", "title": "Frames of a packet are contiguous on the connection", "statement": "Whatever goroutines write to the same client concurrently, the encoded frames of each packet (header and binary attachments) are handed to the transport contiguously and in order.", "quantifier": "every number of concurrent writers, every packet, every interleaving", "why_tests_cant": "All schedules.", "anchors": ["socket/client.go: WriteToEngine"]}
{"id": "C16", "title": "Volatile packets are the only ones dropped", "statement": "On an open connection a non-volatile packet is always handed to the transport, a volatile one exactly when the transport is writable; the relative order of the packets written is the order of the calls.", "quantifier": "every sequence of writes and every evolution of the transport's writability", "why_tests_cant": "All sequences.", "anchors": ["socket/client.go: _packet, WriteToEngine"]}
{"id": "C17", "title": "Namespace middlewares gate every connection", "statement": "A socket is connected to a namespace only after every registered middleware called next without error; middlewares run in registration order; an error stops the chain and is reported in one CONNECT_ERROR packet; if every middleware calls next once the connection completes exactly once or is refused exactly once.", "quantifier": "every list of middlewares and every way they call next (zero, one or several times, synchronously or later, with or without error)", "why_tests_cant": "All middleware behaviours.", "anchors": ["socket/namespace.go: run, Add, _doConnect, Use"]}
{"id": "C18", "title": "Socket middlewares gate every incoming event", "statement": "An incoming event is dispatched to the handlers only if every socket middleware passed it, in order, once; otherwise the error is reported on the error event and no handler runs; events arriving after disconnection are not dispatched.", "quantifier": "every list of middlewares, every event", "why_tests_cant": "All middleware behaviours.", "anchors": ["socket/socket.go: Use, run, dispatch, onevent"]}
{"id": "C19", "title": "A refused or aborted connection leaves no trace", "statement": "If the middlewares refuse a connection, or the transport is closed before they finish, the socket is in no room, is not listed in the namespace or the client, cannot join a room afterwards, and no connection event is emitted.", "quantifier": "every state, every socket, including recovered ones and rooms joined from a middleware", "why_tests_cant": "All histories before the refusal.", "anchors": ["socket/namespace.go: Add; socket/socket.go: _cleanup"]}
{"id": "C20", "title": "Connection sequence", "statement": "When a socket connects it is listed in its namespace and in its own room and marked connected before the CONNECT packet is written, and the connect and connection events are emitted after that, in this order, once.", "quantifier": "every state and every socket", "why_tests_cant": "All states.", "anchors": ["socket/namespace.go: _doConnect; socket/socket.go: _onconnect; socket/client.go: doConnect"]}
{"id": "C21", "title": "Disconnection sequence", "statement": "A connected socket that is closed emits disconnecting (while still in its rooms), then leaves all rooms, the namespace and the client, then emits disconnect with the same reason; each of the two events is emitted at most once per socket.", "quantifier": "every history of closes from any cause (packet, transport, API, server shutdown), every goroutine schedule", "why_tests_cant": "All histories and schedules.", "anchors": ["socket/socket.go: _onclose, _cleanup, Disconnect, ondisconnect; socket/client.go: onclose, _remove"]}
{"id": "C22", "title": "A disconnected socket is inert", "statement": "After the disconnect event the socket is in no room and cannot join one, is not selected by any broadcast or query, no incoming event is dispatched to it and it is never marked connected again.", "quantifier": "every history after the disconnection", "why_tests_cant": "All continuations.", "anchors": ["socket/socket.go: Join, _cleanup, dispatch; socket/namespace.go: Remove"]}
{"id": "C23", "title": "Closing a connection closes every socket on it", "statement": "When the transport closes, or Disconnect(true) is called on one of its sockets, every socket of that connection, in every namespace, is disconnected and no socket of another connection is.", "quantifier": "every state, every set of namespaces joined", "why_tests_cant": "All states.", "anchors": ["socket/client.go: onclose, _disconnect, close"]}
{"id": "C24", "title": "Namespace isolation", "statement": "An emission, bulk operation or query on one namespace never writes to, changes or reports a socket of another namespace, even if rooms or socket ids have the same name, and every packet written carries the namespace of the emitter.", "quantifier": "every state with any number of namespaces, every operation", "why_tests_cant": "All states.", "anchors": ["socket/adapter.go: Broadcast (packet.Nsp, a.nsp.Sockets()); socket/socket.go: packet; socket/namespace.go"]}
{"id": "C25", "title": "Packets only reach sockets of namespaces the client has joined", "statement": "A packet from a client is processed by a socket only if the client is connected to the packet's namespace; a packet for a namespace not joined, a second CONNECT for a joined one, or a CONNECT_ERROR closes the connection.", "quantifier": "every packet, every client state", "why_tests_cant": "All packets and states.", "anchors": ["socket/client.go: ondecoded, connect, doConnect"]}
{"id": "C26", "title": "At most one socket per client and namespace", "statement": "A client has at most one connected socket in a namespace.", "quantifier": "every sequence of packets from the client and every timing of the middlewares", "why_tests_cant": "All timings.", "anchors": ["socket/client.go: ondecoded, doConnect; socket/namespace.go: Add"]}
{"id": "C27", "title": "A session is recovered exactly while it is valid", "statement": "With connection state recovery, a reconnecting client recovers its session if and only if the session was saved, no more than maxDisconnectionDuration has elapsed since the disconnection, and the last received offset is still known; otherwise it gets a fresh session.", "quantifier": "every history of broadcasts, disconnections and reconnections, every clock value", "why_tests_cant": "All histories and times.", "anchors": ["socket/session-aware-adapter.go: PersistSession, RestoreSession; socket/namespace.go: _createSocket"]}
{"id": "C28", "title": "Missed packets are replayed exactly", "statement": "The packets replayed to a recovered client are exactly the stored broadcasts issued after the client's offset that match the rooms of the session, in order, each once.", "quantifier": "every history of broadcasts (any mix of volatile, acknowledged, excluded, room-targeted), every offset", "why_tests_cant": "All histories.", "anchors": ["socket/session-aware-adapter.go: Broadcast, RestoreSession, shouldIncludePacket"]}
{"id": "C29", "title": "Periodic cleanup forgets only what has expired", "statement": "The periodic cleanup removes exactly the expired sessions and, with a non-decreasing clock, exactly the expired packets; it never changes the outcome of a reconnection whose session and offset are both within maxDisconnectionDuration.", "quantifier": "every history, every time of cleanup", "why_tests_cant": "All times.", "anchors": ["socket/session-aware-adapter.go: Construct (SetInterval callback)"]}
{"id": "C30", "title": "A recovered socket gets back its identity, rooms and data", "statement": "A recovered socket has the id, the private id, the rooms and the data it had when it was disconnected, and no two connected sockets ever share an id.", "quantifier": "every history of disconnections and reconnections", "why_tests_cant": "All histories.", "anchors": ["socket/socket.go: Construct, _onclose; socket/session-aware-adapter.go: RestoreSession"]}
{"id": "C31", "title": "No broadcast is lost across a recovered reconnection", "statement": "A client that is disconnected and recovers its session receives every non-volatile, non-acknowledged broadcast that targets it: those before the disconnection live, those in between replayed, those after live, in order and without duplicates.", "quantifier": "every interleaving of broadcasts with disconnection and the steps of the reconnection", "why_tests_cant": "All interleavings.", "anchors": ["socket/session-aware-adapter.go; socket/namespace.go: Add, _createSocket, _doConnect; socket/socket.go: Construct"]}
{"id": "C32", "title": "Sessions are saved for recoverable reasons only", "statement": "The session of a disconnecting socket is saved if and only if connection state recovery is enabled and the reason is a transport or shutdown reason; an explicit disconnect by the client or the server is never recoverable.", "quantifier": "every reason, every configuration", "why_tests_cant": "All reasons (arbitrary strings come from the transport).", "anchors": ["socket/socket.go: _onclose, RECOVERABLE_DISCONNECT_REASONS"]}
{"id": "C33", "title": "Replay and live delivery use the same targeting rule", "statement": "A stored broadcast is replayed to a session if and only if the same broadcast would have been delivered live to a socket with the session's rooms.", "quantifier": "every session, every broadcast options", "why_tests_cant": "All room sets.", "anchors": ["socket/session-aware-adapter.go: shouldIncludePacket; socket/adapter.go: apply"]}
{"id": "C34", "title": "Clients can only enter declared namespaces", "statement": "A client is admitted to a namespace only if it was created by the application or a registered parent namespace accepts its name; otherwise it receives one CONNECT_ERROR for it and no namespace is created.", "quantifier": "every name, every set of parent namespaces and every (synchronous or asynchronous) answer of their matchers", "why_tests_cant": "All names and matchers.", "anchors": ["socket/server.go: _checkNamespace, Of; socket/client.go: connect, doConnect; socket/parent-namespace.go: CreateChild"]}
{"id": "C35", "title": "Of returns one namespace per name", "statement": "Of(name) is idempotent: names with and without leading slash denote the same namespace, repeated calls return the same object, new_namespace is emitted once per namespace, and a handler passed to Of is registered.", "quantifier": "every sequence of Of calls with strings, regular expressions and functions", "why_tests_cant": "All sequences.", "anchors": ["socket/server.go: Of; socket/parent-namespace.go: CreateChild"]}
{"id": "C36", "title": "Empty child namespaces are removed, others are not", "statement": "With cleanupEmptyChildNamespaces a dynamic namespace is removed exactly when its last socket leaves; without it never; the namespace of a connected socket is always the one registered under its name.", "quantifier": "every history of connections, refusals and disconnections", "why_tests_cant": "All histories.", "anchors": ["socket/parent-namespace.go: CreateChild (Cleanup callback); socket/namespace.go: Remove, Cleanup"]}
{"id": "C37", "title": "A parent namespace broadcasts the same event to every child", "statement": "Emitting on a parent namespace (directly or through To/Except...) delivers the event with the same arguments to the matching sockets of each child namespace.", "quantifier": "every set of children, every adapter kind, every event", "why_tests_cant": "All numbers of children.", "anchors": ["socket/parent-broadcast-adapter.go: Broadcast; socket/parent-namespace.go: Emit; socket/session-aware-adapter.go: Broadcast"]}
{"id": "C38", "title": "Cluster broadcast reaches each matching socket of the cluster exactly once", "statement": "With a cluster adapter whose transport delivers each published message once to every other node, a non-local broadcast reaches exactly the matching sockets of all nodes, each exactly once, a local one only those of the emitting node; handling a message never publishes another broadcast.", "quantifier": "every number of nodes, every distribution of sockets, every delivery order", "why_tests_cant": "All cluster sizes and orders.", "anchors": ["adapter/cluster-adapter.go: Broadcast, OnMessage, PublishAndReturnOffset"]}
{"id": "C39", "title": "Broadcast options survive the cluster hop", "statement": "Encoding broadcast options into a cluster message and decoding them on another node preserves which sockets they select and the flags.", "quantifier": "every broadcast options (including absent rooms, except, flags)", "why_tests_cant": "All option values.", "anchors": ["adapter/util.go: EncodeOptions, DecodeOptions"]}
{"id": "C40", "title": "Cluster requests complete exactly once", "statement": "FetchSockets and ServerSideEmit with acknowledgement on a cluster call their callback at most once, without error exactly when every node known at the time of the request has answered or left the cluster, otherwise with a timeout error; the result contains the local sockets plus those of the answering nodes (one response per answering server).", "quantifier": "every order of responses (also unknown or duplicated), node departures and timer expiry", "why_tests_cant": "All orders.", "anchors": ["adapter/cluster-adapter-with-heartbeat.go: FetchSockets, ServerSideEmit, OnResponse, removeNode; adapter/cluster-adapter.go: FetchSockets, ServerSideEmit, OnResponse"]}
{"id": "C41", "title": "Heartbeat membership", "statement": "A node that is heard of at least every heartbeatTimeout is never considered down; one that stays silent longer than heartbeatTimeout is forgotten at the next check, one that closes is forgotten at once; ServerCount is one plus the number of live known nodes; a node never counts itself or the emitter.", "quantifier": "every timed history of messages and checks", "why_tests_cant": "All timed histories.", "anchors": ["adapter/cluster-adapter-with-heartbeat.go: OnMessage, Construct (cleanup timer), removeNode, ServerCount"]}
{"id": "C42", "title": "Cluster bulk operations", "statement": "SocketsJoin, SocketsLeave, DisconnectSockets on a cluster act on the matching sockets of all nodes (or only of the calling node with Local).", "quantifier": "every cluster state and delivery order", "why_tests_cant": "All cluster states.", "anchors": ["adapter/cluster-adapter.go: AddSockets, DelSockets, DisconnectSockets, OnMessage"]}
{"id": "C43", "title": "Responses are processed whichever entry point delivers them", "statement": "A cluster response is processed the same way whether the transport delivers it through OnResponse or through OnMessage (as the code comment promises to extending adapters).", "quantifier": "every response and every pending request", "why_tests_cant": "All responses.", "anchors": ["adapter/cluster-adapter.go: OnMessage, OnResponse; adapter/cluster-adapter-with-heartbeat.go: OnMessage, OnResponse"]}
{"id": "C44", "title": "Incoming events are handled exactly once and in order", "statement": "Each event packet received while the socket is connected is dispatched to the handlers exactly once, and the events of one client are dispatched in the order they were received.", "quantifier": "every sequence of packets and every goroutine schedule", "why_tests_cant": "All schedules.", "anchors": ["socket/client.go: ondecoded (go socket._onpacket); socket/socket.go: dispatch"]}
{"id": "C45", "title": "Server shutdown disconnects everybody", "statement": "Server.Close disconnects every connected socket of every namespace with the reason 'server shutting down' exactly once.", "quantifier": "every server state", "why_tests_cant": "All states.", "anchors": ["socket/server.go: Close"]}
{"id": "C46", "title": "Catch-all listeners are kept in order and removed precisely", "statement": "OnAny/PrependAny (and the outgoing variants) call the listeners in the implied order for every event; OffAny(l) removes exactly the first registration of l and OffAny(nil) removes all.", "quantifier": "every sequence of registrations and removals", "why_tests_cant": "All sequences.", "anchors": ["socket/socket.go: OnAny, PrependAny, OffAny, ListenersAny, OnAnyOutgoing, notifyOutgoingListeners"]}
{"id": "C47", "title": "Static serving never leaves the client directory", "statement": "Whatever URL path and method is requested, serving the client bundle opens no file outside the client-dist directory of the installation, answers only GET and HEAD, and answers 304 exactly when the entity tag matches.", "quantifier": "every URL path, method and If-None-Match header", "why_tests_cant": "All request strings.", "anchors": ["socket/server.go: SetPath, attachServe, serve, sendFile"]}
{"id": "C48", "title": "Options merge", "statement": "Assign overrides exactly the options that are set in its argument and keeps the others; defaults apply only to options that were never set.", "quantifier": "every pair of option sets", "why_tests_cant": "All option combinations.", "anchors": ["socket/server-options.go: Assign; adapter/cluster-adapter-options.go: Assign; socket/server.go: Construct"]}
{"id": "C49", "title": "Session credentials are parsed conservatively", "statement": "A recovery attempt is made only if the auth payload is a map whose pid and offset are non-empty strings (or string lists with a non-empty last element); any other payload leads to a fresh session and never to a crash.", "quantifier": "every auth payload", "why_tests_cant": "All payload shapes.", "anchors": ["socket/namespace.go: parseSessionData, _createSocket; socket/namespace-type.go: GetPid, GetOffset"]}
{"id": "C50", "title": "Room membership under concurrency", "statement": "When joins and leaves run concurrently on several goroutines, once they have all returned a socket that joined a room (and did not leave it) is a member of it in both views and receives its broadcasts.", "quantifier": "every goroutine interleaving of AddAll, Del and DelAll at the granularity of the individual map operations", "why_tests_cant": "All interleavings.", "anchors": ["socket/adapter.go: AddAll, Del, _del, DelAll"]}
{"id": "C51", "title": "Lifecycle under concurrency", "statement": "Whatever goroutines close, connect or move a socket at the same time, disconnect is emitted at most once, a disconnected socket keeps no room membership, and a socket whose transport has closed does not stay connected. A socket that nothing closes ends connected, in its own room and the rooms that were joined; a refused client is told so once.", "quantifier": "every goroutine interleaving at the granularity of individual shared-memory operations", "why_tests_cant": "All interleavings.", "anchors": ["socket/socket.go: _onclose, _cleanup, Join; socket/namespace.go: Add, _doConnect; socket/client.go: onclose, doConnect"]}
{"id": "C52", "title": "Connect timeout", "statement": "If the connect timer of a connection fires while no socket of that connection was ever announced as connected, the connection is closed and nothing else happens; if one was announced, the timer changes nothing, even if that socket has left again.", "quantifier": "every history of operations before the timer fires", "why_tests_cant": "All histories, including attempts that are pending, refused or aborted when the timer fires.", "anchors": ["socket/client.go: setup, doConnect, close, onclose, destroy"]}
{"id": "C53", "title": "Errors of a connection", "statement": "When the decoder or the transport reports an error, every connected socket of the connection gets the error event exactly once, then the connection is closed; afterwards packets of the connection are ignored and no packet is written to it through the client, whatever happens next.", "quantifier": "every history, every continuation", "why_tests_cant": "All histories and all continuations.", "anchors": ["socket/client.go: ondata, onerror, _packet; socket/socket.go: _onerror"]}
{"id": "C54", "title": "Membership of the whole cluster", "statement": "With heartbeats sent at most an interval (plus scheduling delay) apart and messages delivered within a bound, such that both fit in the timeout, any two servers that called Init count each other from two delivery bounds after the later Init until one is closed, so ServerCount is the number of servers; a server that stops sending (crash, or Close without later INITIAL_HEARTBEAT reaching it) is not counted any more after the first check later than the delivery bound plus the timeout.", "quantifier": "any number of servers joining at any time, every order and delay of messages, timers and checks within the bounds, every interval and timeout", "why_tests_cant": "Quantifies over all timed interleavings of a cluster; tests observe a few servers for a few seconds.", "anchors": ["adapter/cluster-adapter-with-heartbeat.go: Construct, Init, scheduleHeartbeat, Close, OnMessage, ServerCount, Publish"]}
{"id": "C55", "title": "Broadcast with acknowledgement across a cluster", "statement": "A broadcast with acknowledgement is written once to exactly the matching sockets of every server (of the emitting server only, when Local); every server asked reports once how many; every answer of a notified socket, and nothing else, reaches the callback of the emitting server, at most once, and none is lost unless the request expired; the user's callback is called without error exactly when every server reported and every notified socket of the cluster answered, with exactly these answers.", "quantifier": "any number of servers, every history of broadcasts, joins, disconnections, answers and timeouts, every order of delivery of messages, every schedule of the handlers of the callback", "why_tests_cant": "Quantifies over every interleaving of requests, reports and answers of several servers; tests deliver messages in order between two or three.", "anchors": ["adapter/cluster-adapter.go: BroadcastWithAck, OnMessage (BROADCAST), OnResponse (BROADCAST_CLIENT_COUNT, BROADCAST_ACK), Publish, PublishResponse; socket/adapter.go: BroadcastWithAck; socket/broadcast-operator.go: Emit"]}
{"id": "C56", "title": "Requests between servers, end to end", "statement": "FetchSockets on a server of a cluster calls its callback at most once. A result without error is the matching sockets of that server at the call, followed by one part for each of some other servers, where a part is exactly the matching sockets of that server, with their rooms, at some moment after the call; every server known at the call has a part or was not known any more at some later moment; when nothing changes and every server is known the result is exactly the matching sockets of the cluster. It ends with an error only by its timer, while the answer of a server that stayed known is outstanding; once everybody known answered or left, it has ended without error. ServerSideEmit calls the listeners of every other server once with the event, never those of the sender, and with a callback collects the first answer given on each server under the same rules.", "quantifier": "any number of servers, every history of requests, events, answers, heartbeats, farewells, timeouts and changes of sockets, every order of delivery", "why_tests_cant": "Quantifies over every interleaving of requests and responses of several servers with membership changes; tests deliver messages in order between two or three servers.", "anchors": ["adapter/cluster-adapter-with-heartbeat.go: ServerSideEmit, FetchSockets, OnResponse, OnMessage, removeNode; adapter/cluster-adapter.go: OnMessage (FETCH_SOCKETS, SERVER_SIDE_EMIT), PublishResponse; socket/namespace.go: ServerSideEmit, OnServerSideEmit"]}
{"id": "C57", "title": "A broadcast concurrent with joins, leaves and connections", "statement": "While other goroutines join and leave rooms, connect and disconnect, a broadcast (or fetch, or bulk operation) acts at most once on each socket; it acts exactly once on a socket that during the whole call is listed and in a targeted room and neither is in nor joins an excluded room; it never acts on a socket that is in an excluded room during the whole call; and a socket it acts on was listed at some moment, in a targeted room or joining it at some moment, and outside each excluded room at some moment. Without interference it acts exactly on the matching sockets.", "quantifier": "every interleaving of the steps of the selection with any number of concurrent joins, leaves, disconnections and connections, every iteration order", "why_tests_cant": "Depends on the interleaving of individual map and set operations of several goroutines; tests cannot control or enumerate them.", "anchors": ["socket/adapter.go: apply, computeExceptSids, Broadcast, FetchSockets, AddSockets, DelSockets, DisconnectSockets, AddAll, Del, DelAll"]}
{"id": "C58", "title": "Operations addressed to one socket of a cluster", "statement": "Socket.Emit with connection state recovery and the methods of a RemoteSocket address the room named by the id of one socket, whatever else is called on the operators and sockets. Provided no other socket joins that room, the socket does not leave it, and ids are distinct: every server writes the packet once to that socket if it is open there when the server handles the call, and to nobody otherwise; a socket that stays on its server gets it exactly once and nobody else does; a socket only ever open on one server gets it at most once. Join, Leave and Disconnect through a RemoteSocket change the rooms and presence of that socket only.", "quantifier": "any number of servers and sockets, every history of calls, joins, leaves, connections and disconnections before and after, every order of delivery", "why_tests_cant": "Quantifies over all histories and delivery orders of a cluster; tests address one socket that sits still.", "anchors": ["socket/socket.go: Emit; socket/remote-socket.go: Construct, Timeout, Emit, Join, Leave, Disconnect; adapter/cluster-adapter.go: Broadcast, AddSockets, DelSockets, DisconnectSockets, OnMessage"]}
{"id": "C59", "title": "The store of sessions and packets under concurrency", "statement": "While broadcasts, saved sessions, restorations and the periodic cleanup run concurrently: the store holds the packets of the recoverable broadcasts, each once, in the order of their pushes, minus a prefix whose last packet some cleanup found expired; every broadcast hands its packet to the inner adapter once, with the identifier under which it is stored. A restored session was in the store and not expired, its offset was in the store, and what is replayed are packets pushed after the offset that concern the rooms of the session, in order, each at most once; when nothing is removed meanwhile it is exactly all of them (and the first of those pushed meanwhile), in particular every packet broadcast after the one of the offset was. A session is saved with the time of the call and stays for the maximal duration, unless an older one of the same client was being deleted when it was saved.", "quantifier": "every interleaving of the steps of any number of concurrent calls, every clock, every iteration order", "why_tests_cant": "Depends on the interleaving of individual operations on the map and the slice with a timer that fires once a minute; tests cannot control or enumerate them.", "anchors": ["socket/session-aware-adapter.go: Construct, PersistSession, RestoreSession, Broadcast, shouldIncludePacket"]}
{"id": "C60", "title": "The table of namespaces under concurrency", "statement": "While calls of Server.Of and clients that connect to namespaces and leave them run concurrently: who is given a namespace for a name is given one with that name, which was registered under it at a moment of the call; a client is told that the namespace is invalid only if no parent accepts the name and it was unregistered at a moment of the call; a registered namespace has its name and is among the children of the parent that created it; new_namespace is emitted at most once per namespace, and for each registered one save the root; the sockets of a namespace are those of the clients connected to it; a namespace is created by a client with the parent that accepts its name, or by a call of Of. If creations of a name do not overlap, one namespace is created and everyone is given that one; a registered namespace that nobody else is creating stays the one of its name, with the clean-up of empty namespaces as long as it has a socket.", "quantifier": "every interleaving of the steps of any number of concurrent calls and clients, every answer of the parents and middlewares", "why_tests_cant": "Depends on the interleaving of single operations on the maps of different goroutines; tests cannot control or enumerate them.", "anchors": ["socket/server.go: _checkNamespace, Of; socket/client.go: connect, doConnect; socket/parent-namespace.go: CreateChild; socket/namespace.go: Add, _doConnect, Remove"]}
{"id": "C61", "title": "Undisturbed calls have the effect of the sequential functions", "statement": "Calls that join and leave rooms, made one after another, each ending before the next begins, leave exactly the tables that the joins and leaves of the sequential model give, and each of them ends. Broadcasts, saved sessions, restorations and cleanups made one after another leave exactly the store, hand over exactly the packets, and return exactly the sessions and missed packets, that the sequential model gives, and each of them ends.", "quantifier": "every state of the tables or the store, every list of calls in every order, every time of each call, every iteration order", "why_tests_cant": "Relates every sequential history of the fine-grained behaviour to the coarse one; a test sees single histories of one of them.", "anchors": ["socket/adapter.go: AddAll, Del, _del, DelAll; socket/session-aware-adapter.go: Construct, PersistSession, RestoreSession, Broadcast"]}
{"id": "C62", "title": "The conversation of a client with a namespace", "statement": "While the socket of a client is admitted, closed from any cause, broadcast to and emitted to on several goroutines, and packets of the client are read: CONNECT and the packet of each emission are written at most once; a packet of the client reaches the socket only if CONNECT was written; it does reach it when the admission is over and nothing has begun to close the socket, and a client that waits for CONNECT is refused only between the write of CONNECT and the registration of the socket with the client, or after something began to close it. CONNECT comes first unless a broadcast looked the socket up before it, or somebody emitted to it or disconnected it. A broadcast that ran to its end on an open connection was written, or the socket was outside the room or the table of the namespace at one of its steps; once the socket has left that table, only its own handlers and broadcasts that had looked it up before still write.", "quantifier": "every interleaving of the steps of the admission with any number of closing calls, joins, leaves, broadcasts, emissions and packets of the client", "why_tests_cant": "Depends on the interleaving of single operations of the admission with the goroutine that reads the connection and those that broadcast; tests cannot control or enumerate them.", "anchors": ["socket/namespace.go: Add, _doConnect; socket/socket.go: _onconnect, _onpacket, _onclose, Disconnect, Emit; socket/client.go: ondecoded, close, WriteToEngine; socket/adapter.go: Broadcast, apply"]}
{"id": "C63", "title": "Order of concurrent emissions", "statement": "When several goroutines emit and broadcast to several connections: every connection carries whole packets one after another; the emissions of one goroutine arrive in the order of its calls on every connection; the emissions of different goroutines arrive in the order of the calls if the second is made when the first has returned; a broadcast that is not volatile has been written once to each of its connections when it returns. The goroutines never deadlock: while one is not finished some goroutine can proceed, and the number of steps is bounded by their programs. Nothing more holds of calls that overlap: two clients can see two broadcasts in opposite orders, and what is sent in reaction to a broadcast can overtake it.", "quantifier": "any number of goroutines, any lists of emissions and broadcasts, any connections, every schedule, every change of the transports", "why_tests_cant": "Depends on the interleaving of writes to several connections by several goroutines; unbounded in all of them.", "anchors": ["socket/client.go: _packet, WriteToEngine; socket/adapter.go: Broadcast, apply; socket/socket.go: packet, Emit"]}
{"id": "C64", "title": "Arguments of emissions in memory", "statement": "The library writes into no array of its caller when arguments are passed as slices, if the slices given to EmitWithAck have no spare room; what is sent is the content of the arguments when Emit, or the function returned by EmitWithAck, is called, without callback and with the offset where the packet is stored; a stored packet keeps its contents whatever the caller does later with its arrays, and is the packet that was sent, if no outgoing listener writes into its arguments; the packet that a parent namespace broadcasts carries to each child the offsets of the children before it.", "quantifier": "every history of allocations, writes, emissions and calls of EmitWithAck functions, every growth policy of append", "why_tests_cant": "Aliasing depends on the capacity of slices and on what the caller writes later; tests use fresh literal arguments.", "anchors": ["socket/socket.go: Emit, EmitWithAck, notifyOutgoingListeners; socket/broadcast-operator.go: Emit, EmitWithAck; socket/session-aware-adapter.go: Broadcast; socket/parent-broadcast-adapter.go: Broadcast"]}
{"id": "C65", "title": "Modifiers under concurrency", "statement": "When several goroutines call modifiers and emit on one socket: an emission carries, field by field, the last modifier written by anybody among those that began since the last emission took the modifiers; none is invented; one call of a modifier is carried by two emissions only if these overlap; an emission carries the modifier its goroutine called before it if no other emission takes the modifiers in between and nobody else sets the field; the same for the timeout of its callback. With one goroutine, or several whose calls do not overlap, each emission carries exactly the modifiers called since the one before. Nothing more holds: a modifier can go to the emission of another goroutine, to both or to none.", "quantifier": "any number of goroutines, any lists of calls, every schedule of the operations on the flags", "why_tests_cant": "Depends on the interleaving of loads, field writes and stores of one pointer by several goroutines.", "anchors": ["socket/socket.go: Compress, Volatile, Timeout, Emit, registerAckCallback, newBroadcastOperator"]}
{"id": "C66", "title": "A server without tables", "statement": "The server behaves like a server that keeps one list of sockets, each with its own set of rooms and its place (waiting, here, gone), and none of the tables: not the two maps of the room registry, not the sockets of a namespace or of a connection, not the namespaces of a connection. After every history of connections, packets, middleware verdicts, timers, transport errors, joins, leaves, emissions, bulk operations, namespace declarations and shutdowns, the visible state is that of this server, and each operation has the same effects (packets written, events fired, connections closed, namespaces announced). The order in which Go ranges over its maps shows neither in the state nor in the effects of an operation (up to their order), but for the order in which parent namespaces are asked and that of the children of a parent namespace. With two sockets of one connection in one namespace, or two sockets with one id, it does not hold.", "quantifier": "all histories in which every socket gets one verdict and ids are not used twice at a time, all options, all orders of the maps", "why_tests_cant": "The tables are redundant: that they agree at every moment depends on all operations together, over histories of any length.", "anchors": ["socket/socket.go", "socket/client.go", "socket/namespace.go", "socket/parent-namespace.go", "socket/server.go", "socket/adapter.go"]}
{"id": "C67", "title": "Lifecycle calls in turn are operations of the server", "statement": "When calls on one socket (its admission or refusal, the loss of its connection, a DISCONNECT packet, Disconnect(false), Disconnect(true), Disconnect(true) of another socket of its connection, shutdown, Join, Leave) are made one after the other, the model in which goroutines interleave step by step and the model of the whole server with atomic operations agree: on whether the connection is open, the socket connected and able to join, its rooms, and its entries in the tables of the namespace and of the connection; and, call by call, on the packets and events heard of the socket. Every such sequence ends. Other sockets, of the same connection or in the same rooms, make no difference; a later socket that has taken over the id does.", "quantifier": "all histories before, all sequences of calls, all numbers of steps in which the calls end, all options", "why_tests_cant": "Two descriptions of the same code at different granularities; that what is proved of one says something about the other holds for all sequences or not at all.", "anchors": ["socket/socket.go: Join, Leave, Disconnect, _onclose, _cleanup, onpacket", "socket/namespace.go: Add, _doConnect, Remove", "socket/client.go: onclose, _disconnect, _remove"]}
{"id": "C68", "title": "Changing the adapter of a server in use", "statement": "When the adapter of a namespace is replaced (any number of times, while sockets connect, join, leave, close, broadcast and are operated on in bulk), every socket stays with the adapter that was current when it was opened, and each adapter, with the sockets opened in its time and the broadcasts that go through it (of the namespace while it is current, of operators kept from that time, of its sockets), behaves as a namespace of its own: its rooms, which of its sockets are listed, and the packets each receives are those of that part of the history; adapters do not interfere. So no emission of the namespace reaches a socket opened before the last change (the expectation that an emission without rooms reaches every connected socket is refuted).", "quantifier": "all histories of replacements, sockets, broadcasts and bulk operations through any adapter, all map orders, both versions of room deletion", "why_tests_cant": "A test changes the adapter before anybody connects; that two generations of sockets never mix is a statement about all histories.", "anchors": ["socket/server.go: SetAdapter", "socket/namespace.go: InitAdapter", "socket/socket.go: Construct, Join, Leave, leaveAll, newBroadcastOperator", "socket/broadcast-operator.go: BroadcastOperator", "socket/adapter.go: apply"]}
{"id": "C69", "title": "Operations on a parent namespace", "statement": "Whatever is called on a parent namespace while children are created, used and removed: every child is in the state of a namespace without parent in which each emission of the parent (directly or through To/Except) is a broadcast of its own with the same options, and its sockets receive exactly that; bulk operations of the parent change nothing and its queries find nobody; an emission with a callback makes one collection of replies per child existing at the call, each waiting for that child's clients with its own timer, so the callback is called once per child (never when there is none); through To/Except an emission with a callback notifies nobody and is completed at once with no replies. That a callback is called at most once, and that SocketsJoin makes matching sockets join, are refuted.", "quantifier": "all histories, all numbers of children, all map orders, all packets, options, replies and expiries", "why_tests_cant": "Tests of dynamic namespaces use one child; the number of calls depends on the number of children.", "anchors": ["socket/parent-namespace.go: Emit, CreateChild, FetchSockets, InitAdapter", "socket/parent-broadcast-adapter.go: Broadcast", "socket/broadcast-operator.go: Emit, FetchSockets, AllSockets, SocketsJoin, SocketsLeave, DisconnectSockets", "socket/adapter.go: BroadcastWithAck, apply"]}
{"id": "C70", "title": "HTTP answers of client serving", "statement": "A request that is not for a bundle file goes to another handler. For a bundle file: 405 for methods other than GET and HEAD, 304 exactly when the tag sent names the version, else 200 exactly when the file can be opened and 404 otherwise. A 200 answer has the bytes read from that file, Content-Type by whether the name ends in .map, Cache-Control and ETag, no other header but Content-Encoding; the content coding is the first of gzip, deflate, br, zstd named in Accept-Encoding (none if none is named), and the body is in the format registered for it unless it is deflate. If the client gives no weight of zero, it accepts the coding. An answer with an entity tag is confirmed by 304 and is the answer that would be given again, if the file and the accepted codings are the same. Refuted: respecting q=0; the format of deflate; different tags (or Vary) for different codings; no tag on 404; 200 only for whole files.", "quantifier": "all file systems, prefixes, paths, methods, tags, and all Accept-Encoding headers of the registered codings with any weights", "why_tests_cant": "Tests send the header values of one client and do not look at caches; the wrong answers need particular headers.", "anchors": ["socket/server.go: attachServe, serve, sendFile"]}
{"id": "C71", "title": "Nothing is left behind", "statement": "Once the transport of a client closed, that client stores no socket, no namespace and no timer and none of its sockets is connected, whatever happens afterwards. A namespace all of whose clients' transports closed and in which no middleware is running stores no socket, no room and no member. At any time everything a namespace stores belongs to sockets of that namespace that are connected or, for rooms, whose middlewares are running; no room is stored empty. The condition on middlewares is needed: a recovered socket waiting for a middleware that never finishes stays in its rooms.", "quantifier": "all histories of well-behaved environments (the last part: of all environments), any number of clients, namespaces and reconnections, all map orders", "why_tests_cant": "Leaks appear after long histories with particular interleavings of closing and connecting; tests look at the tables after one disconnection.", "anchors": ["socket/client.go: onclose, close, _disconnect, _remove, doConnect", "socket/socket.go: _onclose, _cleanup, leaveAll, Disconnect, Construct", "socket/namespace.go: Add, Remove, doConnect", "socket/adapter.go: AddAll, DelAll, _del"]}
{"id": "C72", "title": "Namespace calls made in turn are operations of the server", "statement": "Whatever history the server goes through, seen from its table of namespaces it is an execution of the small-step interleaving model of that table in which each goroutine (a call of Of, or a client that connects, is admitted or refused, and leaves) goes on until it rests while all others rest: same table, same namespaces with the same names, parents and connected ids, same children of each parent, same new_namespace events in the same order, one goroutine per call of Of, and one per socket, resting where that socket is (waiting for its middlewares, connected, gone). Conversely every such execution, begun by the constructor of the server and with answers that the registered parents could give, ends where some history of the server with these parents ends.", "quantifier": "all histories of the server and all executions in turn with any number of clients, parents and namespaces, with and without cleanup of empty child namespaces, all map orders, all verdicts of the middlewares", "why_tests_cant": "The agreement of two descriptions of the code over all histories is not a behaviour of one execution.", "anchors": ["socket/server.go: Of, _checkNamespace", "socket/parent-namespace.go: CreateChild", "socket/client.go: connect, doConnect", "socket/namespace.go: Add, _doConnect, Remove"]}
{"id": "C73", "title": "The connect timeout under concurrency", "statement": "The server hangs up because of the connect timeout only if the timer fired and found the client in no namespace; a client that gets no CONNECT accepted and does not close itself is always hung up; a client that was announced to the application before the timer fired is never hung up by it, also when it leaves all its namespaces afterwards, provided that its CONNECT was accepted after the setup of the connection was over; a client in a namespace that it does not leave is not hung up by a timer that has not yet looked. Beyond that the timer can strike an admitted client: between its look at the table and the close the client can be sent its CONNECT and be announced, and a CONNECT accepted between the start of the timer and the store of its handle does not stop it.", "quantifier": "all interleavings of the steps of the setup, the timer, any number of admissions and departures and the close of the transport", "why_tests_cant": "The windows are a few instructions wide and 45 seconds after the connection, or before the timer handle is stored.", "anchors": ["socket/client.go: setup, doConnect, close, onclose, destroy, _remove", "socket/namespace.go: Add, _doConnect", "socket/socket.go: _onconnect"]}
{"id": "C74", "title": "A connection with several sockets under concurrency", "statement": "Calls on a connection with several sockets, some of which (the close of the transport, Disconnect(true), Server.Close) go over the tables of sockets while others are admitted, closed and removed from them, are for each socket an execution of the lifecycle of a socket alone on its connection. Hence when the transport or the server closes, or a Disconnect(true) finds its own socket connected, every socket that was connected ends closed, out of all tables and out of every room that no concurrent Join names, and disconnect is emitted for it; each call emits disconnecting and then disconnect, with the same reason, at most once per socket; a socket that is refused, or whose connection had closed, is never connected; and a socket is admitted completely, into its own room and those that were joined, if nothing that can close it is called, whatever becomes of the others; a refused client is told so once unless its connection is closed; a connected socket that nothing called can close stays connected and only its own Join and Leave calls move it. Disconnect(true) whose own socket was left just before does nothing to the others.", "quantifier": "any number of sockets on the connection, all calls, all interleavings of their steps, all orders and all keys a Range over a changing table may visit", "why_tests_cant": "A loop over a table that changes during the loop is a race between several goroutines of one connection; tests see a few orders of it.", "anchors": ["socket/client.go: connect, doConnect, _disconnect, _remove, close, onclose", "socket/socket.go: Disconnect, _onclose, _cleanup, _onconnect", "socket/namespace.go: Add, _doConnect, Remove", "socket/server.go: Close"]}
{"id": "C75", "title": "Attaching and closing the server", "statement": "Whatever calls of Attach, Listen, ServeHandler, Bind and Close are made in whatever order, the server has one engine per Attach on its HTTP server and one more if ServeHandler came first; later calls of ServeHandler make none and return the engine made last; a connection through an open engine of the server makes exactly one client, and so does one through an engine passed to Bind once. Engines are closed by Close only, and it closes exactly those of the HTTP server attached to last, or without one the engine bound last; with a single HTTP server (or only ServeHandler) no engine is left open and no connection comes in any more. Otherwise engines of the server stay open after Close and go on making clients.", "quantifier": "all histories of the calls, any number of HTTP servers and engines, all connections in between", "why_tests_cant": "Histories are unbounded; tests attach a server once and close it.", "anchors": ["socket/server.go: Attach, Listen, ServeHandler, initEngine, Bind, onconnection, Close"]}
{"id": "C76", "title": "Catch-all listeners under concurrency", "statement": "While goroutines register and remove catch-all listeners and events are received (sent), every event calls exactly the registrations in force when it began, in the implied order, each once per registration and with the arguments of that event, whatever is registered or removed meanwhile. So a listener added before the event began and not removed since is called, and whoever is called was added before the event began and not all listeners were removed in between; nobody is called for an event that did not begin. Operations made in turn call whom the operations of the sequential model call. A listener may be called after the OffAny that removed it has returned, by an event begun before, and may see two events in the other order than they began.", "quantifier": "all interleavings of registrations, removals and the calls for any number of events", "why_tests_cant": "The windows between the copy of the list and the calls are a few instructions wide.", "anchors": ["socket/socket.go: onevent, OnAny, PrependAny, OffAny, OnAnyOutgoing, PrependAnyOutgoing, OffAnyOutgoing, notifyOutgoingListeners"]}
{"id": "C77", "title": "The arguments of an event are shared by those who see it", "statement": "Catch-all listeners, middlewares and handlers of a received event, and the outgoing listeners and the encoder of a sent one, are given one and the same slice of arguments. So whatever they write into it, each is given what was received with, at every place, the value written there last by one of those before it, and the handlers called are those of the name then at the first place; the event is refused exactly if a middleware that was called gave an error for what it was given, and nobody is called after it; dispatch panics only if what was left at the first place is not a string; what Emit sends is what the outgoing listeners left; but what a broadcast sends to its targets is what was broadcast, and what a recovering client is sent again is what the outgoing listeners of all targets left. If nobody writes, all are given, and the clients are sent, the original arguments.", "quantifier": "all numbers of listeners, middlewares and targets, all writes depending on what is seen, all arguments", "why_tests_cant": "Tests do not write into arguments; the change shows at other listeners, in other goroutines or after a reconnection.", "anchors": ["socket/socket.go: onevent, dispatch, run, Emit, notifyOutgoingListeners, Construct", "socket/adapter.go: Broadcast", "socket/session-aware-adapter.go: Broadcast, RestoreSession"]}
