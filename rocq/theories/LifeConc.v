(** Interleaving model of the lifecycle of one socket: connecting, closing from any cause and joining rooms on
    several goroutines.
    Source: socket/namespace.go:267-303, 348-381, socket/socket.go:473-503, 509-531, 618-646, 668-681,
    socket/client.go:120-159, 233-247, socket/server.go:617-626.
    Granularity: one step per operation on an atomic, on a types.Map, on the adapter (the operations of the
    adapter are interleaved in RoomsConc.v) or on the connection, and per event emitted.  A handler that calls
    these functions from within an event is a call that runs while the call emitting the event stands still.
    The socket is alone on its connection and in its namespace, its id is not reused. *)
From Verif Require Import Base.

(** [ls_open]: conn.ReadyState() == "open"; [ls_connected], [ls_can]: the flags connected and canJoin;
    [ls_rooms]: the adapter's rooms for the id; [ls_listed]: the socket is in nsp.sockets; [ls_csock],
    [ls_cnsp]: it is in client.sockets, in client.nsps. *)
Record lstate := LState {
  ls_open : bool; ls_connected : bool; ls_can : bool; ls_rooms : gset room; ls_listed : bool; ls_csock : bool; ls_cnsp : bool }.
Definition set_open v s := LState v (ls_connected s) (ls_can s) (ls_rooms s) (ls_listed s) (ls_csock s) (ls_cnsp s).
Definition set_connected v s := LState (ls_open s) v (ls_can s) (ls_rooms s) (ls_listed s) (ls_csock s) (ls_cnsp s).
Definition set_can v s := LState (ls_open s) (ls_connected s) v (ls_rooms s) (ls_listed s) (ls_csock s) (ls_cnsp s).
Definition set_rooms v s := LState (ls_open s) (ls_connected s) (ls_can s) v (ls_listed s) (ls_csock s) (ls_cnsp s).
Definition set_listed v s := LState (ls_open s) (ls_connected s) (ls_can s) (ls_rooms s) v (ls_csock s) (ls_cnsp s).
Definition set_csock v s := LState (ls_open s) (ls_connected s) (ls_can s) (ls_rooms s) (ls_listed s) v (ls_cnsp s).
Definition set_cnsp v s := LState (ls_open s) (ls_connected s) (ls_can s) (ls_rooms s) (ls_listed s) (ls_csock s) v.

(** The calls; [LcConnect own refused]: the goroutine of Add when the middlewares are done. *)
Inductive lcall :=
  | LcConnect (own : room) (refused : bool)
  | LcTransport (r : string)        (* the connection closes: client.onclose *)
  | LcPacket                        (* a DISCONNECT packet: _onclose *)
  | LcDisconnect                    (* socket.Disconnect(false) *)
  | LcDisconnectAll                 (* socket.Disconnect(true) *)
  | LcClient                        (* client._disconnect: Disconnect(true) of another socket of the connection, which was connected *)
  | LcShutdown                      (* Server.Close *)
  | LcJoin (rs : gset room)
  | LcLeave (r : room).
(** What follows _onclose. *)
Inductive lcont := KEnd | KClear | KAll.
Inductive lpc :=
  | QStart
  (* Add's goroutine: namespace.go:277-301 *)
  | QStore | QMark | QCan | QOwn | QPacket | QTable | QNsps | QConnect | QConnection   (* _doConnect *)
  | QLeft | QRemove | QFlag | QError                                                   (* _cleanup, then _error *)
  (* Disconnect: socket.go:669-678; the two phases of client._disconnect *)
  | QWrite (k : lcont)
  | QRange1 | QCheck1 | QClear1 | QReady | QHang | QRange | QClear
  (* _onclose: socket.go:619-638 *)
  | QOpen (r : string) (k : lcont) | QSay (r : string) (k : lcont) | QLeave (r : string) (k : lcont) | QUnlist (r : string) (k : lcont)
  | QNoJoin (r : string) (k : lcont) | QHas (r : string) (k : lcont) | QDrop (r : string) (k : lcont) | QDropNsp (r : string) (k : lcont)
  | QOff (r : string) (k : lcont) | QBye (r : string) (k : lcont)
  (* Join: socket.go:478 *)
  | QAdd
  | QDone.
Definition after (k : lcont) : lpc := match k with KEnd => QDone | KClear => QClear | KAll => QClear1 end.

(** Events emitted (or packets written), with the index of the call. *)
Inductive lev := VPacket | VConnect | VConnection | VDisconnecting (r : string) | VDisconnect (r : string) | VDenied | VLeavePacket.

Definition server_reason := "server namespace disconnect".
Definition lc_step1 (t : lcall) (p : lpc) (s : lstate) : lpc * lstate * option lev :=
  let forced := match t with LcTransport r => r | _ => "forced server close" end in
  match p with
  | QStart =>
      match t with
      | LcConnect _ refused => (if ls_open s then if refused then QLeft else QStore else QLeft, s, None)
      | LcTransport _ => (QRange, set_open false s, None)
      | LcPacket => (QOpen "client namespace disconnect" KEnd, s, None)
      | LcDisconnect => (if ls_connected s then QWrite KEnd else QDone, s, None)
      | LcDisconnectAll => (if ls_connected s then QRange1 else QDone, s, None)
      | LcClient => (QRange1, s, None)
      | LcShutdown => (if ls_listed s then QOpen "server shutting down" KEnd else QDone, s, None)
      | LcJoin _ => (if ls_can s then QAdd else QDone, s, None)
      | LcLeave r => (QDone, set_rooms (ls_rooms s ∖ {[r]}) s, None)
      end
  | QStore => (QMark, set_listed true s, None)
  | QMark => (QCan, set_connected true s, None)
  | QCan => (if ls_can s then QOwn else QPacket, s, None)
  | QOwn => (QPacket, match t with LcConnect own _ => set_rooms ({[own]} ∪ ls_rooms s) s | _ => s end, None)
  | QPacket => (QTable, s, if ls_open s then Some VPacket else None)
  | QTable => (QNsps, set_csock true s, None)
  | QNsps => (QConnect, set_cnsp true s, None)
  | QConnect => (QConnection, s, Some VConnect)
  | QConnection => (QDone, s, Some VConnection)
  | QLeft => (QRemove, set_rooms ∅ s, None)
  | QRemove => (QFlag, set_listed false s, None)
  | QFlag => (match t with LcConnect _ true => QError | _ => QDone end, set_can false s, None)
  | QError => (QDone, s, if ls_open s then Some VDenied else None)
  | QWrite k => (QOpen server_reason k, s, if ls_open s then Some VLeavePacket else None)
  | QRange1 => (if ls_csock s then QCheck1 else QClear1, s, None)
  | QCheck1 => (if ls_connected s then QWrite KAll else QClear1, s, None)
  | QClear1 => (QReady, set_csock false s, None)
  | QReady => (if ls_open s then QHang else QDone, s, None)
  | QHang => (QRange, set_open false s, None)
  | QRange => (if ls_csock s then QOpen forced KClear else QClear, s, None)
  | QClear => (QDone, set_csock false s, None)
  | QOpen r k => (if ls_connected s then QSay r k else after k, s, None)
  | QSay r k => (QLeave r k, s, Some (VDisconnecting r))
  | QLeave r k => (QUnlist r k, set_rooms ∅ s, None)
  | QUnlist r k => (QNoJoin r k, set_listed false s, None)
  | QNoJoin r k => (QHas r k, set_can false s, None)
  | QHas r k => (if ls_csock s then QDrop r k else QOff r k, s, None)
  | QDrop r k => (QDropNsp r k, set_csock false s, None)
  | QDropNsp r k => (QOff r k, set_cnsp false s, None)
  | QOff r k => (QBye r k, set_connected false s, None)
  | QBye r k => (after k, s, Some (VDisconnect r))
  | QAdd => (QDone, match t with LcJoin rs => set_rooms (rs ∪ ls_rooms s) s | _ => s end, None)
  | QDone => (QDone, s, None)
  end.

(** A configuration: the state, the calls, the log. *)
Record lconf := LConf { lf_state : lstate; lf_calls : list (lcall * lpc); lf_log : list (nat * lev) }.
Definition lc_step (c : lconf) (i : nat) : lconf :=
  match lf_calls c !! i with
  | Some (t, p) =>
      let x := lc_step1 t p (lf_state c) in
      LConf x.1.2 (<[i := (t, x.1.1)]> (lf_calls c)) (lf_log c ++ match x.2 with Some e => [(i, e)] | None => [] end)
  | None => c
  end.
Definition lc_run (s : lstate) (ts : list lcall) (sched : list nat) : lconf := foldl lc_step (LConf s ((λ t, (t, QStart)) <$> ts) []) sched.
