(** Model of one namespace with connection state recovery: sockets are created (possibly from a saved
    session), admitted or refused, join and leave rooms, receive broadcasts and are closed.
    Source: socket/namespace.go:267-381, socket/socket.go:207-249, 473-531, 618-681,
    socket/session-aware-adapter.go.
    Granularity: the functions named at each constructor of [rop] are atomic steps; creating a socket
    and admitting it are two steps, because middlewares run in between.
    Simplification: the log [r_out] records what is handed to the client's connection; whether the
    transport takes it is in [Write.v].  Middlewares are in [Middleware.v]: here the environment
    chooses [RFinish] or [RRefuse]. *)
From Verif Require Import Base GoTypes Rooms Adapter Session.

(** The fields of a socket that matter here, socket/socket.go:85-123. *)
Record rsock := RSock {
  rk_id : sid; rk_pid : string; rk_client : nat; rk_data : value;
  rk_recovered : bool; rk_connected : bool; rk_can_join : bool
}.
(** What is written to a client: CONNECT with the ids (socket.go:515-530), an event (the flag is a
    ghost: does the data end with a packet identifier), DISCONNECT (socket.go:675), CONNECT_ERROR. *)
Inductive wire :=
  | WConnect (id : sid) (pid : string)
  | WEvent (stored : bool) (data : list value)
  | WDisconnect
  | WError.
Record rstate := RState {
  r_store : store;               (* sessions and packets of the adapter *)
  r_reg : registry;              (* rooms of the adapter *)
  r_nsock : gmap sid nat;        (* n.sockets, socket/namespace.go *)
  r_heap : list rsock;           (* every socket created *)
  r_out : list (nat * wire)      (* written, by client *)
}.
Definition rinit (max : Z) : rstate := RState (store0 max) empty_registry ∅ [] [].

Definition set_store st s := RState st (r_reg s) (r_nsock s) (r_heap s) (r_out s).
Definition set_reg g s := RState (r_store s) g (r_nsock s) (r_heap s) (r_out s).
Definition set_nsock m s := RState (r_store s) (r_reg s) m (r_heap s) (r_out s).
Definition set_heap h s := RState (r_store s) (r_reg s) (r_nsock s) h (r_out s).
Definition send (c : nat) (l : list wire) s := RState (r_store s) (r_reg s) (r_nsock s) (r_heap s) (r_out s ++ (pair c <$> l)).

(** Why a socket is closed, and the reason given to _onclose. *)
Inductive cause :=
  | ByServer                     (* Disconnect(false), and Disconnect(true) by client.go:133-140; socket.go:668-681 *)
  | ByClient                     (* DISCONNECT packet, socket.go:600-603 *)
  | ByForce                      (* client.close(), client.go:153-159 *)
  | ByShutdown                   (* Server.Close, server.go:617-622 *)
  | ByTransport (reason : string). (* close event of the connection, client.go:233-247 *)
Definition reason_of (c : cause) : string :=
  match c with
  | ByServer => "server namespace disconnect"
  | ByClient => "client namespace disconnect"
  | ByForce => "forced server close"
  | ByShutdown => "server shutting down"
  | ByTransport r => r
  end.

Inductive rop :=
  | RCreate (c : nat) (auth : option (string * string)) (id pid : string) (o1 o2 : order)
      (* _createSocket for client c; auth: the pid and offset sent; id, pid: what GenerateId returns *)
  | RFinish (k : nat)                      (* _doConnect *)
  | RRefuse (k : nat) (o : order)          (* _cleanup after a middleware error or a closed client *)
  | RJoin (k : nat) (rs : list room)       (* Socket.Join *)
  | RLeave (k : nat) (r : room)            (* Socket.Leave *)
  | RSetData (k : nat) (v : value)         (* Socket.SetData *)
  | REmit (pk : string) (b : bcast) (os : orders)  (* Broadcast on the adapter; pk: what YeastDate returns *)
  | RClose (k : nat) (c : cause) (o : order)       (* _onclose *)
  | RTick.                                 (* the periodic cleanup *)

Section recovery.
  (** Opts().GetRawConnectionStateRecovery() != nil; the adapter is then the session-aware one
      (socket/server.go:146-160). *)
  Context (csr : bool).

  (** Join of one socket, socket/socket.go:473-480. *)
  Definition join (a : rsock) (rs : list room) (s : rstate) : rstate :=
    if rk_can_join a then set_reg (add_all (rk_id a) (remove_dups rs) (r_reg s)).1 s else s.

  (** Socket.Construct without a previous session, socket/socket.go:226-241. *)
  Definition create_fresh (c : nat) (id pid : string) (s : rstate) : rstate :=
    set_heap (r_heap s ++ [RSock id (if csr then pid else "") c VNil false false true]) s.
  (** Socket.Construct with a previous session, socket/socket.go:213-225: rooms one by one, data,
      missed packets. *)
  Definition create_recovered (c : nat) (x : session) (missed : list (list value)) (o : order) (s : rstate) : rstate :=
    let a := RSock (se_sid x) (se_pid x) c (se_data x) true false true in
    let s := foldl (λ s r, join a [r] s) s (o (se_rooms x)) in
    send c (WEvent true <$> missed) (set_heap (r_heap s ++ [a]) s).
  (** _createSocket, socket/namespace.go:331-346.  A panic of RestoreSession is excluded by C27 for
      the broadcasts considered; here it leaves the state unchanged. *)
  Definition create (now : Z) (c : nat) (auth : option (string * string)) (id pid : string) (o1 o2 : order) (s : rstate) : rstate :=
    match auth with
    | Some (p, off) =>
        if csr then
          let '(st, r) := restore o1 now p off (r_store s) in
          match r with
          | RSession x missed => create_recovered c x missed o2 (set_store st s)
          | RFresh => create_fresh c id pid (set_store st s)
          | RPanic => set_store st s
          end
        else create_fresh c id pid s
    | None => create_fresh c id pid s
    end.

  (** _cleanup, socket/socket.go:642-646; Remove, socket/namespace.go:374-381. *)
  Definition cleanup_socket (k : nat) (a : rsock) (o : order) (s : rstate) : rstate :=
    let s := set_reg (del_all true o (rk_id a) (r_reg s)).1 s in
    let s := set_nsock (delete (rk_id a) (r_nsock s)) s in
    set_heap (<[k := RSock (rk_id a) (rk_pid a) (rk_client a) (rk_data a) (rk_recovered a) (rk_connected a) false]> (r_heap s)) s.

  (** _doConnect and _onconnect, socket/namespace.go:348-353, socket/socket.go:509-531. *)
  Definition finish (k : nat) (a : rsock) (s : rstate) : rstate :=
    let s := set_nsock (<[rk_id a := k]> (r_nsock s)) s in
    let a := RSock (rk_id a) (rk_pid a) (rk_client a) (rk_data a) (rk_recovered a) true (rk_can_join a) in
    let s := set_heap (<[k := a]> (r_heap s)) s in
    send (rk_client a) [WConnect (rk_id a) (rk_pid a)] (join a [rk_id a] s).

  (** _onclose, socket/socket.go:618-639 (the DISCONNECT packet of Disconnect(false) precedes it). *)
  Definition onclose (now : Z) (k : nat) (a : rsock) (c : cause) (o : order) (s : rstate) : rstate :=
    let s := match c with ByServer => send (rk_client a) [WDisconnect] s | _ => s end in
    let s := if csr && bool_decide (reason_of c ∈ recoverable_reasons)
             then set_store (persist now (Session (rk_id a) (rk_pid a) (rooms_of (r_reg s) (rk_id a)) (rk_data a)) (r_store s)) s
             else s in
    let s := cleanup_socket k a o s in
    set_heap (<[k := RSock (rk_id a) (rk_pid a) (rk_client a) (rk_data a) (rk_recovered a) false false]> (r_heap s)) s.

  (** WriteToEngine for one selected socket, socket/adapter.go:161-163. *)
  Definition deliver (w : wire) (k : nat) (s : rstate) : rstate :=
    match r_heap s !! k with Some a => send (rk_client a) [w] s | None => s end.
  (** Broadcast, session-aware-adapter.go:124-144 around adapter.go:145-164. *)
  Definition emit (now : Z) (pk : string) (b : bcast) (os : orders) (s : rstate) : rstate :=
    let stored := csr && storable b in
    let '(st, data) := if csr then sbroadcast now pk b (r_store s) else (r_store s, bc_data b) in
    let s := set_store st s in
    let rooms := match bc_opts b with Some o => bo_rooms o | None => Some ∅ end in
    let except := match bc_opts b with Some o => bo_except o | None => Some ∅ end in
    (apply_sockets r_reg r_nsock (deliver (WEvent stored data)) (o_rooms os) (o_ids os) (o_sids os) rooms except s).1.

  Definition rstep (e : Z * rop) (s : rstate) : rstate :=
    match e.2 with
    | RCreate c auth id pid o1 o2 => create e.1 c auth id pid o1 o2 s
    | RFinish k =>
        match r_heap s !! k with
        | Some a => if negb (rk_connected a) && rk_can_join a then finish k a s else s
        | None => s
        end
    | RRefuse k o =>
        match r_heap s !! k with
        | Some a => if negb (rk_connected a) && rk_can_join a then send (rk_client a) [WError] (cleanup_socket k a o s) else s
        | None => s
        end
    | RJoin k rs => match r_heap s !! k with Some a => join a rs s | None => s end
    | RLeave k r => match r_heap s !! k with Some a => set_reg (del true (rk_id a) r (r_reg s)).1 s | None => s end
    | RSetData k v =>
        match r_heap s !! k with
        | Some a => set_heap (<[k := RSock (rk_id a) (rk_pid a) (rk_client a) v (rk_recovered a) (rk_connected a) (rk_can_join a)]> (r_heap s)) s
        | None => s
        end
    | REmit pk b os => emit e.1 pk b os s
    | RClose k c o =>
        match r_heap s !! k with
        | Some a => if rk_connected a then onclose e.1 k a c o s else s
        | None => s
        end
    | RTick => if csr then set_store (cleanup e.1 (r_store s)) s else s
    end.
  Definition rrun (max : Z) (h : list (Z * rop)) : rstate := foldl (λ s e, rstep e s) (rinit max) h.
End recovery.
