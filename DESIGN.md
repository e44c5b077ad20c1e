# Formal model of zishang520/socket.io in Rocq (Coq 8.16.1)

This file states what is modelled, how each property of `properties.jsonl` is proved, what is trusted, and
what was found.  The development is in `rocq/theories`; it uses std++ and no axioms.

## Approach

The code is a library of mutable objects driven by API calls, network packets, timers and goroutines.  It is
modelled at two granularities.

* **Atomic layer.**  Every function of the repository that carries logic is a total, computable Gallina
  function on explicit state that returns the new state and a log of observable effects (packets handed to the
  transport, events emitted, callbacks invoked).  One call, packet, timer or goroutine body is one step; a
  history is an arbitrary list of steps chosen by the environment.  Map iteration orders are explicit
  parameters constrained only to be permutations; random identifiers are supplied by the environment.
  Properties are invariants or refinements over every history.
* **Interleaving layer.**  For the properties about schedules the same functions are split into their
  individual shared-memory operations (one load, store or set operation of the thread-safe
  `types.Map`/`types.Set`/`types.Slice`, one lock acquisition, one event), executed by a pool of threads that
  an arbitrary schedule interleaves.  Theorems hold for every schedule; false claims are refuted by a concrete
  schedule evaluated by the kernel.

Every definition of a model cites file and lines of `/repo`.  Property theorems are in the files `Props*.v`,
which contain only statements, `exact lemma`, `Print Assumptions` and examples.  For most models there is a
file `…Spec.v` with the vocabulary of the statements, written in terms of histories and logs and not of the
model's helper functions, and one or more files `…Proofs.v`.

Naming: `Cxx_…` for a full property or an unconditional part of it, `…_partial` for a statement that needs
a condition the English claim does not have, `…_refuted` for a proof that the unconditional statement is
false of the model (each of these is a finding about the code, listed below).  `…_ex` are concrete
instances showing that the hypotheses of a theorem can be met.

## Files

| model | code | granularity |
|-------|------|-------------|
| `Rooms`, `Adapter` | socket/adapter.go (all but BroadcastWithAck), bulk operations on sockets | atomic |
| `AdapterRun` | histories of one namespace: a socket enters the table and joins its room, joins, leaves, closes; broadcasts and bulk operations between them | atomic |
| `Operator` | socket/broadcast-operator.go, the modifiers and Emit of socket/socket.go, socket/namespace.go (ServerSideEmit, To...), socket/remote-socket.go; sets and flags are heap cells | atomic |
| `Acks` | Emit with callback, registerAckCallback, onack, timers, BroadcastWithAck of socket/adapter.go, Ids | interleaving |
| `Once` | socket.go onevent/ack, sync.Once | interleaving |
| `BcastAck` | BroadcastOperator.Emit with callback, RemoteSocket's | interleaving |
| `Write` | client.go _packet, WriteToEngine | interleaving |
| `Middleware` | Use/run of namespaces and sockets, completion of Add and dispatch | interleaving |
| `Session` | socket/session-aware-adapter.go | atomic |
| `SessionConc` | the same functions, between any two operations on the maps and slices | interleaving |
| `NspConc` | server.go _checkNamespace and Of, client.go connect and doConnect, parent-namespace.go CreateChild and its clean-up, namespace.go _doConnect and Remove, between any two operations on shared maps | interleaving |
| `Recovery` | namespace.go Add, _createSocket, _onServerClose…; socket.go construction from a session, _onclose; with `Session` | atomic |
| `Cluster` | adapter/cluster-adapter.go broadcasts and bulk operations, adapter/util.go, any number of servers | atomic handlers, any delivery order |
| `ClusterReq`, `ClusterReqConc` | adapter/cluster-adapter.go requests and responses, adapter/cluster-adapter-with-heartbeat.go | atomic handlers; one request interleaved |
| `AnyListeners` | catch-all listeners of socket.go | atomic |
| `Serve` | server.go: serving of the client bundle | atomic |
| `Options` | server-options.go, cluster-adapter-options.go, defaults in server.go | atomic |
| `SessionData` | namespace-type.go, credentials in CONNECT | atomic |
| `Dispatch` | client.go ondecoded, socket.go _onpacket, onevent, dispatch | interleaving |
| `RoomsConc` | AddAll, Del, DelAll of adapter.go | interleaving |
| `ApplyConc` | apply, computeExceptSids of adapter.go, with the joins and leaves of `RoomsConc` | interleaving |
| `System` | server.go, client.go, namespace.go, parent-namespace.go, parent-broadcast-adapter.go, socket.go: namespaces, dynamic namespaces, connections, sockets, shutdown | atomic |
| `LifeConc` | admission, closing and joining of one socket | interleaving; the socket is alone on its connection (lifted by C74) |
| `Emissions` | client.go _packet and WriteToEngine for several connections (each with its mutex), several goroutines with lists of emissions; a broadcast writes to a given list of connections in turn (adapter.go Broadcast) | interleaving |
| `ServerSpec` | specification for C66: a server that keeps one list of sockets and no table; no code of its own, one definition per operation of `System` | atomic |
| `TurnSpec` | specification for C67: which operation of `System` is which call of `LifeConc`, what each model keeps of a socket and what is heard of it | both |
| `Swap` | `SetAdapter` on a namespace in use: the adapters made so far, the field `adapter` of every socket, operators kept from before (C68) | server.go 260-267; namespace.go 160-162; socket.go 117, 212, 473-503, 1014; broadcast-operator.go 15; adapter.go 145-306 |
| `SwapSpec` | specification for C68: the history that each adapter has to do with | Swap |
| `Family` | a parent namespace with its children: emissions, emissions with acknowledgement, bulk operations and queries of the parent (C69) | parent-namespace.go 66-114; parent-broadcast-adapter.go 39-43; namespace.go 403-432, 480-560; broadcast-operator.go 175-255, 274-380; adapter.go 145-306 |
| `FamilySpec` | specification for C69: the history of each child, the collections of replies | Family |
| `Http` | server.go: status, headers and body of the answers of client serving | on top of Serve; the files are an oracle |
| `HttpSpec` | specification for C70: Accept-Encoding headers as clauses with weights, registered formats | Http |
| `GoneSpec` | specification for C71: connections that closed, clients and namespaces that store nothing | System |
| `NspTurnSpec` | specification for C72: goroutines of NspConc that go on in turn, and when NspConc and System are in the same state | NspConc, System |
| `TimerConc` | the connect timer of one connection: client.go setup, doConnect, close, destroy, _remove; namespace.go Add (goroutine), _doConnect | interleaving; no time; what a closed connection does to its sockets is in LifeConc |
| `ConnConc` | one connection with any number of sockets: client.go connect/doConnect, ondecoded (DISCONNECT), onclose, close, _disconnect, server.go Close, each with its Range over a table of sockets; the steps of one socket are those of `LifeConc` | interleaving; a Range visits at least the keys that are there all the time and at most those that were there at some time; one socket per id, so no second socket under the same id |
| `ConnConcSpec` | specification for C74: which call of `LifeConc` a call on the connection is for one socket; what is emitted for one socket | both |
| `Attach` | server.go Attach, Listen, ServeHandler, initEngine, Bind, onconnection, Close: which engines are made, bound and closed | atomic; engine options and routes not included |
| `AttachSpec` | specification for C75 on the history of calls | |
| `AnyConc` | catch-all listeners registered and removed while events call them, one step per call | socket/socket.go:553-564, 862-1006 |
| `AnyConcSpec` | vocabulary for C76: when an event began, its calls | |
| `Shared` | the slice of arguments given to listeners, middlewares, encoder and store | socket/socket.go:220-225, 291-311, 553-564, 753-825, 998-1006; adapter.go:144-164; session-aware-adapter.go:78-144 |
| `SharedSpec` | vocabulary for C77: last writes | |
| `FlagsConc` | the modifiers of one socket: socket.go Compress, Volatile, Timeout, Emit, registerAckCallback, newBroadcastOperator | interleaving |
| `Args` | socket.go Emit, EmitWithAck, outgoing listeners, broadcast-operator.go Emit, session-aware-adapter.go Broadcast, parent-broadcast-adapter.go Broadcast: the slices of their arguments in memory (arrays, spare capacity, append) | atomic |
| `WireConc` | `LifeConc` with broadcasts, Socket.Emit and packets of the client: client.go ondecoded, WriteToEngine, close, socket.go _onpacket, Emit, the visit of the socket in adapter.go apply | interleaving |
| `Heartbeat` | cluster-adapter-with-heartbeat.go:64-150 for a whole cluster with clock, timers and messages | atomic handlers |
| `ClusterAck` | cluster-adapter.go BroadcastWithAck, OnMessage, OnResponse; adapter.go BroadcastWithAck; onack; with the callbacks of `BcastAck` | atomic handlers, any delivery order |
| `ClusterFetch` | FetchSockets and ServerSideEmit of cluster-adapter-with-heartbeat.go on every server (with `ClusterReq` and `Adapter`), their handlers in cluster-adapter.go, namespace.go OnServerSideEmit | atomic handlers, any delivery order |

The statements are in `PropsRooms` (C01–C05), `PropsOperator` (C06–C09), `PropsAcks` (C10, C11),
`PropsOnce` (C12), `PropsBcastAck` (C13, C14), `PropsWrite` (C15, C16), `PropsMiddleware` (C17, C18),
`PropsSystem` (C19–C26, C34–C37, C45), `PropsSession` (C27–C29, C33), `PropsRecovery` (C30–C32),
`PropsCluster` (C38–C43), `PropsConc` (C44, C50), `PropsMisc` (C46–C49), `PropsLife` (C51),
`PropsClient` (C52, C53), `PropsHeartbeat` (C54),
`PropsClusterAck` (C55), `PropsClusterFetch` (C56), `PropsApply` (C57), `PropsOne` (C58),
`PropsSessionConc` (C59), `PropsNspConc` (C60), `PropsAlone` (C61), `PropsWire` (C62), `PropsEmissions` (C63),
`PropsArgs` (C64), `PropsFlags` (C65), `PropsServer` (C66), `PropsTurn` (C67), `PropsSwap` (C68), `PropsFamily` (C69),
`PropsHttp` (C70), `PropsGone` (C71), `PropsNspTurn` (C72), `PropsTimer` (C73), `PropsConn` (C74), `PropsAttach` (C75), `PropsAny` (C76), `PropsShared` (C77).

## How each property is proved

| id | method |
|----|--------|
| C01 | refinement of the two tables to the set of pairs (socket, room) given by the history |
| C02 | a strict replay function accepts the log and yields the rooms table; invariant over histories |
| C03, C04 | the list visited by `apply` is a duplicate-free enumeration of the targeting predicate, for every iteration order; lifted to histories of one namespace by induction on the history against an abstract view (who is listed, who is in which room) |
| C05 | loop invariant with state-changing callbacks: the matched set is that of the initial state |
| C06 | C07 + C03 for operators made from a socket |
| C07 | no call writes an existing cell; algebra of chains |
| C08, C09 | decision for every string; state of the flags cell over every sequence of calls |
| C10, C11 | invariants over every schedule of handlers and timers; exact outcome for non-overlapping handlers |
| C12 | invariant over every schedule, sync.Once down to its memory operations |
| C13, C14 | invariants over every schedule of counts, replies and timer |
| C15, C16 | invariant over every schedule of writers, the lock taken step by step |
| C17, C18 | invariants over every behaviour of the middlewares, which call `next` whenever and as often as they like |
| C19–C26 | invariants of `System` over every history (decomposition of each step into elementary transitions) |
| C27–C29, C33 | the store is a function of the history of calls; comparison with the targeting rule of C03 |
| C30–C32 | invariants of `Recovery` over every history |
| C34–C37, C45 | invariants of the namespace tables of `System` |
| C38, C39, C42 | N servers, messages in flight delivered in any order |
| C40, C41, C43 | invariants over histories of handlers; all schedules for one request |
| C44, C50, C51, C57 | invariants over every schedule; refutations by schedule |
| C46–C49 | functions on lists, strings, options and values |
| C52, C53 | invariants of `System` over every history |
| C54 | timed invariant: the last heartbeat was seen or one is on its way; all orders of events |
| C55 | conservation of requests, reports and answers (on the way, waiting, arrived, lost) over every history; composition with C13 for every schedule of the callback |
| C56 | each server's history of handlers is one of C40/C41; conservation (request on the way, callback held, response on the way, arrived) and origin of every response over every history |
| C58 | the room named by an id holds that socket alone, on the one server that lists it: invariant over every history; with C38, C42 and C07 |
| C59 | invariants over every schedule (the store is a suffix of the log of pushes; position of a restoration relative to the log); refutations by schedule |
| C60 | invariants over every schedule (who owns a namespace that is not registered yet, who was given one); refutations by schedule |
| C61 | simulation: each call of `RoomsConc` and `SessionConc` run alone computes the function of `Rooms` and `Session`; induction over the calls |
| C62 | invariants over every schedule, by the place of the admission (what is written, listed and registered at each); refutations by schedule |
| C63 | one invariant over every schedule (the mutex of a connection is held by the goroutine that is inside it; each log is the blocks of the finished writes and a part of the current one); reasons of the results recorded along the run; a measure of the work left |
| C64 | each operation writes only into arrays that it allocated (induction over the children of a parent, with the slices that an append leaves alone); induction over the history |
| C65 | one invariant over every schedule (each structure holds the last modifiers of its round); the rounds are counted in the list of actions; one goroutine by simulation |
| C66 | refinement: the abstraction function `seen` forgets every table; each operation of `System` is simulated by one of `ServerSpec`, effects up to order, under the invariants of `SystemPolite`, `SystemLife`, `SystemNsp` |
| C67 | agreement of two models: a block of `LifeConc` steps of one call from a state no call is in the middle of has a closed form; the reference server of C66 has the same one per socket; induction over the calls, sole ownership of the id preserved |
| C68 | simulation: the state of a namespace with n adapters is related to n states of a namespace with one; every callback of `apply` preserves the relation for the adapter of the socket and the others; induction over the history, then the histories of C05 per adapter |
| C69 | loops over the children in any order touch each child once; the table of the parent stays empty, so every operation of the base adapter on it is the identity; collections keep their numbers (induction over the history), then C13 per collection |
| C70 | case analysis of the handler on top of C47; a coding is found in a header only where it is named, because it contains no separator (induction over the clauses) |
| C71 | an invariant of the elementary transitions from the close of the transport on, with the invariants of C19-C23 |
| C72 | simulation: every elementary change of the table is a block of steps of one goroutine; goroutines are added at the end of the list, so that earlier turns are unchanged; what the middlewares of a socket will decide is chosen backwards. Converse: a goroutine that leaves its rest is followed until it rests again; each such stretch is an operation (or an opening and a packet) with a map order that asks the right parent first |
| C73 | invariants over every schedule of the steps; refutations by schedule |
| C74 | simulation: for each socket of the connection an execution of `LifeConc` is built along the schedule; the theorems of C51 are carried over; refutation by schedule |
| C75 | invariant relating the state to closed forms on the history; refutations by history |
| C76 | induction over the schedule: what an event has called and has left is the copy it took; the copy is that of C46; refutations by schedule |
| C77 | induction over those who see the slice; composition of overwritten slices |

The exact reach of each property and the reason for each `partial` are in `MANIFEST.json`.

## Trusted base

* Coq 8.16.1's kernel, including `vm_compute` (used for the concrete examples and the refutations).
* `Print Assumptions` prints `Closed under the global context` for every theorem listed in `MANIFEST.json`: no
  axiom of the standard library, of std++ or of ours is used.  (Loading std++ brings the module type of
  `ssreflect.ssrunder` into scope; its items are not used.)
* The reading of the Go code, cited line by line in the models.
* The behaviour of what is outside the repository:
  * `types.Map`, `types.Set`, `types.Slice`: each operation is atomic; a `Range` or `Keys` visits the keys in any
    order; `Set.Delete` reports presence (the theorem C02 needs it; a parameter of the model elsewhere);
    `Slice.RangeAndSplice` visits from the front (from the back with its flag).
    `Map.Range` during changes (`ApplyConc`): no key twice, only keys present at some time, all keys present all the time.
  * `events.EventEmitter`: listeners are called synchronously, in order, on the emitting goroutine.
  * `utils.SetTimeout`/`ClearTimeout`: a timer fires at most once, not after it was cleared before firing; it may
    fire at any time (delays are not measured except for sessions and heartbeats, which read a clock).
  * `utils.YeastDate`, `utils.Base64Id().GenerateId`, `RandomId`: fresh identifiers (stated as a hypothesis where
    it is needed).
  * the parser: one packet is a list of frames; decoding yields the packet encoded; it refuses malformed
    packets and events without a name (`event[0].(string)` in socket.go:762 panics on any other value).
  * `engine.Attach(srv, opts)` makes an engine that closes when `srv` emits `close`, and `HttpServer.Close` emits it; an engine emits `connection`
    only while it is open (`Attach`).
  * the engine.io connection: after `Close` its state is not open; it yields data only while open; a write to a
    closed connection is dropped.
  * the built-in `append`: in place within the capacity, else in a new array (any growth).
  * `sync.Mutex`, `atomic` values: sequentially consistent.  `sync.Once` is modelled, not trusted.
  * `path.Base`/`path.Clean`/`filepath.Join` and `regexp` for the one regular expression of server.go are
    re-implemented in `Serve.v`.

### Modelled only in part

* Payloads are values of type `gval` (nil, booleans, numbers, strings, lists, maps, callbacks); binary
  attachments appear only as frames.
* Volatile/compress flags are carried in options; their effect is in `Write`.
* `System` uses the in-memory adapter and takes the restored session as an oracle; `Recovery` has the real one,
  for one namespace.
* Handlers of the application are arbitrary histories of calls; a handler that calls the library while an event is
  being emitted is an interleaving (`LifeConc`).
* Errors returned by `DoPublish` are modelled for broadcasts and requests, not for responses and heartbeats.

### Not modelled

* Routes of the HTTP server, CORS. In `Http.v` the compressors are named by the format they write, not
  modelled; `utils.Contains` of engine.io is taken to return the first needle that `strings.Contains` finds, and `http.Error` to keep the
  headers that are already set (except Content-Length and Content-Type).
* The engine.io server, its transports, its options, `Handshake` construction (but for the credentials).
* Encoding of packets; logging; `typed-events.go` (forwards to the event emitter); panics as such (a panic is an explicit `crash`
  result where the code can panic on client data).
* The redis/… adapters (not in the repository).
* `uint64` wrap-around of counters, except for acknowledgement ids (bounded hypothesis).

## Findings

Each is a theorem unless marked (reading).

1.  **C02** Room events are faithful only because `Set.Delete` reports presence.
2.  **C06** A sender is excluded through the room named by its id: after `Leave(id)` it receives its own
    broadcasts, and another socket that joined that room misses them.
3.  **C09** An emission rejected for a reserved name keeps the modifiers, which then apply to the next one.
4.  **C10** The callback of `Emit` can be called twice: duplicate replies handled by overlapping goroutines, a reply
    and the timer, or a timer that fires before it is stored.
5.  **C13** The callback of a broadcast can be called twice by overlapping replies or by reply and timer; a reply
    without exactly one argument breaks the count or the entries.
6.  **C14** `RemoteSocket.Emit` with callback panics unless the reply is exactly one array, and when the client is gone.
7.  **C17** A middleware that calls `next` twice both refuses and accepts (or connects twice).
8.  **C18** Catch-all listeners run before the middlewares; an event accepted before a disconnection can reach its
    handler after it.
9.  **C19** A refused socket that restored a session evicts the rooms and the entry of a live socket of the same id.
10. **C22** After `disconnect`, catch-all listeners and acknowledgement callbacks still run, `Emit` still writes.
11. **C23** A protocol-3 client that asks twice for a namespace leaves a connected socket behind when it closes.
12. **C26** Two CONNECT packets for one namespace while its middlewares run give two connected sockets.
13. **C27** A client that was idle longer than the duration before disconnecting cannot recover: its offset was cleaned up.
14. **C29** With a clock that goes back, cleanup removes more packets than the expired ones.
15. **C30** A client that restores one session from two connections gives two connected sockets with one id; the room
    of the own id comes back although it was left.
16. **C31** Broadcasts between the restoration of a session and the admission of the socket are lost.
17. **C33** Options with nil sets are stored and crash every later recovery.
18. **C34** A parent's answer after the connect timeout gives CONNECT_ERROR and a connection; a matcher that never
    answers hides the parents after it; a name without leading slash enters an undeclared namespace.
19. **C35** The handler given to `Of(name, f)` is lost when a regular-expression parent creates the namespace.
20. **C36, C45** A connection attempt that outlives its (removed) namespace gives a connected socket in a namespace that is
    registered nowhere: invisible to broadcasts and not closed by `Server.Close`.
21. **C37** With connection state recovery, a parent's `To(…).Emit` appends one more offset argument per child.
22. **C38** If the transport fails to publish, the sockets of the emitting server are not reached either.
23. **C40** A cluster request can call its callback twice, with an error and a result, or with duplicate answers.  The
    adapter without heartbeat never asks the other servers.
24. **C43** Answers to requests of the heartbeat adapter are dropped when delivered through `OnMessage`.
25. **C44** A goroutine per packet: events of one client can be dispatched out of order.
26. **C46** `OffAny` compares code addresses: closures of the same function literal are confused.
27. **C47** A path ending in `..` after a question mark opens the parent of client-dist.
28. **C48** The defaults of the recovery options are not applied when an adapter is configured; `Construct` writes into
    the caller's options (reading).
29. **C49** The query of a protocol-3 client is never used for credentials.
30. **C50** A join concurrent with the removal of the emptied room is lost: the socket believes to be in the room, the room
    does not contain it; a stranger can appear in one view only.
31. **C51** Two concurrent closers both emit `disconnect`; a `Join` that has read `canJoin` (also one in a leave-room
    handler) leaves a membership of a dead socket; a transport that closes between the check of the ready state and
    the entry into the client's table leaves a connected socket for ever; a shutdown during an admission emits
    `disconnect` before `connect`.
32. **C53** With two sockets of one id (finding 11) one of them gets no error event.
33. **C54** Nothing in the repository calls the adapter's `Init`, so no INITIAL_HEARTBEAT is sent and the heartbeat starts
    only with the first `Publish` of the heartbeat adapter itself; broadcasts and joins publish through the embedded adapter:
    servers that only broadcast are forgotten by the others although they are alive.
34. **C54** A closed adapter that still gets messages answers INITIAL_HEARTBEAT and is counted again; if `Refresh` re-arms a
    stopped timer it sends heartbeats for ever.
35. **C55** A `Local` broadcast with acknowledgement waits for the reports of all servers, which are never asked: in a cluster
    its callback always gets the timeout error; likewise after a failed publish.  When `ServerCount()` is behind (a server
    just joined), the callback is called without the answers of the sockets of that server.
36. **C56** `FetchSockets` and `ServerSideEmit` with a callback wait for the servers known at the call: the sockets of a server
    that has not been heard of are missing from a result without error.
37. (reading) `OnMessage` appends the callback to the packet of SERVER_SIDE_EMIT in place: with a transport that hands the same slice to several
    adapters of one process, they may overwrite each other's callback.
38. **C57** A broadcast to two rooms misses a socket that moves from the room not yet visited to the one already visited, although it
    is always in one of them; it reaches a socket that joins an excluded room (after the exclusions were computed) and then a
    targeted one, although it never matches.
39. **C58** With connection state recovery and a cluster adapter `Socket.Emit` goes through the transport: when publishing fails, a
    socket of this very server gets nothing and `Emit` returns no error.  A client that comes back on another server under the same id while
    the message is on its way gets the packet twice, or not at all.
40. **C59** The periodic cleanup during `RestoreSession` shifts the indices of its loop: packets that are in the store all the time
    are not replayed.  If it removes the packet of the offset between `FindIndex` and `make`, the capacity is negative and
    `RestoreSession` panics (nothing in the repository recovers).  A session saved while a cleanup, or a restoration that found the
    previous one expired, is about to delete that one is deleted with it.
41. **C59** Overlapping broadcasts reach the sockets in another order than the store: after a recovery a packet is missing or is replayed although
    it was received.  `EmittedAt` is read before the push: the cleanup can remove packets that are not expired.
42. **C60** `Of` and `_checkNamespace` look a name up and register it in separate steps: two overlapping calls create two namespaces, and the
    second registration replaces the first.  Two clients that connect to one dynamic namespace at the same time can end up in
    different ones; a listener added to the namespace that was replaced is lost.
43. **C60** The clean-up of an empty child namespace tests, closes the adapter and unregisters in separate steps, and unregisters by name: a client
    that enters meanwhile is connected to a namespace that is not registered and whose adapter is closed; when two
    clients leave together, the second clean-up unregisters the namespace created since.  A client that found the name registered just before the clean-up
    gets a plain namespace made by `Of`: no parent, none of its middlewares and handlers.
44. **C62** `_doConnect` writes CONNECT before it registers the socket with the client (`client.nsps`): a packet that the client sends at once after
    CONNECT can be read before the registration; `ondecoded` then takes it for an invalid state and closes the whole connection.
    The same happens to a packet of the client that crosses a DISCONNECT of the server: leaving one namespace closes the connection, with the
    sockets in all the others.
45. **C62** The socket is in the table of the namespace and in its rooms before CONNECT is written: a broadcast can reach the client before
    CONNECT, and `DisconnectSockets` can send DISCONNECT before CONNECT, after which the handlers of `connection` run on a closed socket.
    DISCONNECT is written before the socket leaves its rooms: a broadcast can follow it.
46. **C63** Broadcasts are not atomic: two clients can see two concurrent broadcasts in opposite orders, and an event that the server sends in
    reaction to a client's answer to a broadcast can reach another client before the broadcast (in the Node.js server a broadcast is one
    turn of the event loop). Witnesses `C63_opposite_refuted`, `C63_reaction_refuted`.
47. **C64** The function that `EmitWithAck` returns appends the callback to the slice of its caller: when it has spare room the callback is
    written into the caller's array (`C64_spare_refuted`), and the arguments are read when the function is called, not when
    `EmitWithAck` is (`C64_late_refuted`). A catch-all outgoing listener that writes into its arguments changes what `Emit` sends, and
    with recovery what is stored and replayed (`C64_listener_refuted`).
48. **C65** The modifiers of a socket are kept in one structure of the socket: when two goroutines use the socket, the modifier of one can go to the
    emission of the other, to both, or to none, and `Timeout(d).Emit(ev, ack)` can register a callback without timeout
    (`C65_stolen_refuted`, `C65_doubled_refuted`, `C65_lost_refuted`, `C65_timeout_refuted`).
49. **C68** `SetAdapter` on a server that has sockets splits every namespace: the sockets connected before keep the old adapter, with their rooms; emissions and
    bulk operations of the namespace go through the new one and reach none of them, although they stay connected and listed
    (`C68_missed`, `C68_everybody_refuted`). The old adapter is not closed.
50. **C69** Only `Emit` without callback means for a parent namespace what it means for others. With a callback, the callback is called once per child,
    and never when there is no child (`C69_ack_times`, `C69_ack_never`, `C69_once_refuted`); `To(…)` with a callback notifies nobody and reports success with no
    replies (`C69_via_ack`); `SocketsJoin`, `SocketsLeave`, `DisconnectSockets` do nothing and `To(…).FetchSockets`, `AllSockets` find nobody, without an error
    (`C69_bulk`, `C69_queries`, `C69_join_refuted`). `Emit` of a reserved name on a parent is refused by the children and reports no error (reading).
51. **C70** The Accept-Encoding header is searched as a string: `gzip;q=0` is answered in gzip (`C70_acceptable_refuted`). The coding announced as
    `deflate` is raw DEFLATE (RFC 1951); the registered format is zlib (RFC 1950) (`C70_format_refuted`). All codings of a file have the same
    strong entity tag, are public and have no `Vary` header, so a shared cache can give a compressed copy to a client that accepts none, and
    304 confirms it (`C70_variants_refuted`). A 404 carries the entity tag of the file too, and is confirmed by 304 when the file is there
    (`C70_confirmed_refuted`). A failure while reading gives a truncated answer 200 (`C70_whole_refuted`).
52. **C71** A recovered socket enters its former rooms when it is built, before its middlewares run. If the connection closes meanwhile and
    a middleware never calls `next`, the socket stays in the rooms of the adapter for ever (`C71_waiting_refuted`).
53. **C73** The connect timer reads `nsps.Len()` and closes later without looking again: a client that is sent its CONNECT and announced in between
    is hung up, or is announced after it was hung up. A CONNECT accepted between `SetTimeout` and `connectTimeout.Store` finds no timer to clear:
    the client is hung up 45 seconds later if it has left its namespaces by then.
54. **C74** `Disconnect(true)` looks at `connected` of its own socket first: if a DISCONNECT packet of the client for that namespace comes just before, the
    connection is not closed and the other sockets of the client stay connected (`C74_all_refuted`).
55. **C75** `Close` closes only the HTTP server attached to last (with its engines), or without one the engine bound last: other engines of the
    server stay open, and connections through them still become clients (`C75_close_refuted`).
56. **C76** a catch-all listener can be called after the `OffAny` that removed it has returned, by an event begun before, and can see two events in the
    other order than they began (`C76_removed_refuted`, `C76_order_refuted`).
57. **C77** arguments are handed on as one slice: a listener or middleware that writes into it changes what those after it are given, even which event is
    dispatched, what `Emit` sends (`C77_emit_refuted`), and what a recovering client is sent again, though not what was sent live (`C77_replay_refuted`).
    With recovery the outgoing listeners also see the offset as a last argument. If something other than a string is left at the first place, the type
    assertion of `dispatch` panics in its own goroutine (`C77_verdict`, `C77_example_panic`).
58. (reading) `AllSockets` ignores `Except`; `socket.Rooms()` returns the live set; clients can send events named like
    lifecycle events; acknowledgement callbacks are not
    removed on disconnection; a broadcast with callback and without `Timeout` has a timer of 0 ms;
    `WriteToEngine` called by adapters does not test the ready state; `OnMessage` does not test the namespace;
    cluster `BroadcastWithAck` publishes the packet pointer before the base adapter writes `packet.Id` into it.

## Mutation testing

`seeded/LOG.jsonl` records wrong programs: each line names the definition of the model that was edited, the edit,
the claim it breaks, the theorems whose proofs no longer go through, and the theorems that were tightened because they
still proved.  Procedure: in a copy of `rocq`, apply the edit and rebuild; every proof that fails is replaced by
`Admitted`, and the property theorems whose `Print Assumptions` then lists an admitted lemma are those that failed.
A failed proof is weaker evidence than a false statement: a proof can also break because a lemma it uses, or its script, depends
on the shape of the edited definition, so the lists under `failed` may contain theorems that are still true of the edited model.
The theorems for which the claim is false of the edited program were named before each hand-written edit was tried; no statement
was disproved mechanically for the edited models.
Harmless edits (which break no claim) are included as a check of the procedure and marked as such.
