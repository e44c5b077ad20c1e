(** Interleaving model of what passes between a client and one of its sockets: the lifecycle calls of [LifeConc.v]
    (admission, closing, joining), broadcasts and emissions of the server, packets of the client.
    Source: socket/adapter.go:153-167, 269-306 (a broadcast, in its visit of this socket), socket/socket.go:302-337 (Emit),
    453-459 (packet), 535-550 (_onpacket), socket/client.go:147-187 (close, _packet, WriteToEngine), 199-222 (ondecoded).
    Granularity: as in [LifeConc.v].  The selection of the sockets by a broadcast in [ApplyConc.v] and the writing of frames
    in [Write.v] are here one step each: the visit of this socket, one packet.  The packets of the client are not
    malformed and are for this namespace.  A write to a connection that is not open is dropped. *)
From Verif Require Import Base LifeConc.

Inductive wcall :=
  | WBcast (r : option room)      (* a broadcast to a room, or to all *)
  | WEmit                         (* Socket.Emit, without callback and recovery *)
  | WIn (bye : bool).             (* a packet of the client: EVENT or ACK, or DISCONNECT *)
Inductive wres := WSkipped | WSent | WHandled | WRefused.
Inductive wpc :=
  | VStart                        (* rooms or sids: adapter.go:283, 295; ReadyState: client.go:163; nsps.Load: client.go:213 *)
  | VLook                         (* nsp.Sockets().Load: adapter.go:288, 299 *)
  | VSend                         (* WriteToEngine *)
  | VEnd (r : wres).
(** The packets written to the connection for this socket; [PEvent j]: by thread [j]. *)
Inductive wpacket := PConnect | PDisconnect | PDenied | PEvent (j : nat).
Record wstate := WState { w_life : lconf; w_threads : list (wcall * wpc); w_wire : list wpacket }.

(** The packets that the lifecycle calls write. *)
Definition written (e : lev) : option wpacket :=
  match e with VPacket => Some PConnect | VLeavePacket => Some PDisconnect | VDenied => Some PDenied | _ => None end.
(** A goroutine is started, or another function called: [p] is where it begins. *)
Definition spawn (t : lcall) (p : lpc) (c : lconf) : lconf := LConf (lf_state c) (lf_calls c ++ [(t, p)]) (lf_log c).
Definition w_goto (j : nat) (t : wcall) (p : wpc) (s : wstate) : wstate := WState (w_life s) (<[j := (t, p)]> (w_threads s)) (w_wire s).

Definition w_step (s : wstate) (l : nat + nat) : wstate :=
  let st := lf_state (w_life s) in
  match l with
  | inl i => let c := lc_step (w_life s) i in
             WState c (w_threads s) (w_wire s ++ omap (λ e, written e.2) (drop (length (lf_log (w_life s))) (lf_log c)))
  | inr j =>
      match w_threads s !! j with
      | None => s
      | Some (t, VStart) =>
          match t with
          | WBcast r =>
              (* to all: the keys of sids; a socket that has left every room, its own too, is taken to have none *)
              w_goto j t (if match r with Some r => bool_decide (r ∈ ls_rooms st) | None => negb (bool_decide (ls_rooms st = ∅)) end then VLook else VEnd WSkipped) s
          | WEmit => w_goto j t (if ls_open st then VSend else VEnd WSkipped) s
          | WIn bye =>
              if ls_open st
              then if ls_cnsp st
                   then let s' := w_goto j t (VEnd WHandled) s in
                        if bye then WState (spawn LcPacket QStart (w_life s')) (w_threads s') (w_wire s') else s'     (* client.go:217, socket.go:547 *)
                   else let s' := w_goto j t (VEnd WRefused) s in
                        WState (spawn LcDisconnectAll QReady (w_life s')) (w_threads s') (w_wire s')                  (* client.go:220: close *)
              else w_goto j t (VEnd WSkipped) s                                                              (* nothing is read *)
          end
      | Some (t, VLook) => w_goto j t (if ls_listed st then VSend else VEnd WSkipped) s
      | Some (t, VSend) =>
          let s' := w_goto j t (VEnd WSent) s in
          WState (w_life s') (w_threads s') (w_wire s' ++ if ls_open st then [PEvent j] else [])
      | Some (t, VEnd _) => s
      end
  end.
Definition w_run (s : lstate) (ts : list lcall) (ws : list wcall) (sched : list (nat + nat)) : wstate :=
  foldl w_step (WState (LConf s ((λ t, (t, QStart)) <$> ts) []) ((λ t, (t, VStart)) <$> ws) []) sched.
