(** Model of the two middleware chains: namespace middlewares for an incoming connection
    (socket/namespace.go:174-208 Use/run, 267-303 Add) and socket middlewares for an incoming event
    (socket/socket.go:553-564 onevent, 753-768 dispatch, 791-825 Use/run).  The two [run] functions
    have the same text; what happens when the chain ends differs and is selected by [mode].

    A middleware is arbitrary user code holding a [next] closure: it may call it at any time, from
    any goroutine, any number of times.  The body of [next] has no shared state of its own, so a
    call is one step.  The completion callback starts a goroutine; its tests and effects are
    separate steps of that goroutine. *)
From Verif Require Import Base GoTypes.

Inductive mode := NsMode | EvMode.

(** An error passed to next: message and data (ExtendedError, socket/namespace-type.go; for socket
    middlewares only the message matters). *)
Record merr := MErr { me_msg : string; me_data : value }.

Inductive tpc :=
  | TStart (err : option merr)   (* namespace.go:276 / socket.go:757: goroutine started with err *)
  | TRefuse (err : merr)         (* namespace.go:284-297: after socket._cleanup(): write CONNECT_ERROR *)
  | TGo                          (* namespace.go:300 n._doConnect / socket.go:762 EmitUntyped *)
  | TDone.

(** One connection attempt or one incoming event. *)
Record att := Att {
  at_gate : nat;                 (* the client (NsMode) or the socket (EvMode) *)
  at_p3 : bool;                  (* conn.Protocol() == 3 *)
  at_fns : list nat;             (* the snapshot [fns := n._fns.All()] *)
  at_inv : list nat;             (* the invocations of middlewares so far: positions in [at_fns] *)
  at_tasks : list tpc
}.

Inductive mev :=
  | CAny (a : nat)                                (* socket.go:560-562: catch-all listeners *)
  | CInv (a i f : nat)                            (* middleware f, at position i, is called *)
  | CNext (a i : nat) (err : option merr)         (* it called its next *)
  | CClean (a : nat)                              (* namespace.go:278, 283: socket._cleanup() *)
  | CErrPkt (a : nat) (data : value)              (* CONNECT_ERROR packet written *)
  | CErrEv (a : nat) (e : merr)                   (* socket.go:759: error event *)
  | CDrop (a : nat)                               (* socket.go:764: packet received after disconnection *)
  | CGo (a : nat).                                (* connected / dispatched to the handlers *)

Record mst := MSt {
  m_fns : list nat;              (* n._fns / s.fns *)
  m_closed : gset nat;           (* clients whose ReadyState() != "open" / sockets with !Connected() *)
  m_att : list att;
  m_log : list mev
}.
Definition mst0 : mst := MSt [] ∅ [] [].

(** namespace.go:284-297: the payload of the CONNECT_ERROR packet. *)
Definition err_payload (p3 : bool) (e : merr) : value :=
  if p3 then match me_data e with VNil => VStr (me_msg e) | d => d end
  else VMap [("message", VStr (me_msg e)); ("data", me_data e)].

Definition at_set_inv (inv : list nat) (x : att) : att := Att (at_gate x) (at_p3 x) (at_fns x) inv (at_tasks x).
Definition at_set_tasks (ts : list tpc) (x : att) : att := Att (at_gate x) (at_p3 x) (at_fns x) (at_inv x) ts.

Inductive mlabel :=
  | MUse (f : nat)                                (* Use *)
  | MStart (g : nat) (skip p3 : bool)             (* Add / onevent; [skip]: SkipMiddlewares() && Recovered() *)
  | MNext (a k : nat) (err : option merr)         (* the next closure of the k-th invocation is called *)
  | MTask (a j : nat)                             (* the j-th goroutine of the attempt makes a step *)
  | MClose (g : nat).                             (* the connection closes / the socket is disconnected *)

(** run(0) or fn(nil): namespace.go:185-207, socket.go:802-824. *)
Definition mrun0 (a g : nat) (p3 : bool) (fns : list nat) : att * list mev :=
  match fns with
  | [] => (Att g p3 [] [] [TStart None], [])
  | f :: _ => (Att g p3 fns [0] [], [CInv a 0 f])
  end.
(** Add (namespace.go:267-303) and onevent (socket.go:553-564). *)
Definition mstart (md : mode) (g : nat) (skip p3 : bool) (s : mst) : mst :=
  let a := length (m_att s) in
  match md with
  | NsMode =>
      if skip && negb (bool_decide (g ∈ m_closed s))
      then MSt (m_fns s) (m_closed s) (m_att s ++ [Att g p3 [] [] [TGo]]) (m_log s)
      else let '(x, evs) := mrun0 a g p3 (m_fns s) in MSt (m_fns s) (m_closed s) (m_att s ++ [x]) (m_log s ++ evs)
  | EvMode => let '(x, evs) := mrun0 a g p3 (m_fns s) in MSt (m_fns s) (m_closed s) (m_att s ++ [x]) (m_log s ++ CAny a :: evs)
  end.
(** The body of next: namespace.go:190-202, socket.go:807-819. *)
Definition mnext (a k : nat) (err : option merr) (s : mst) : option mst :=
  match m_att s !! a with
  | None => None
  | Some x =>
    match at_inv x !! k with
    | None => None
    | Some i =>
      let done r := MSt (m_fns s) (m_closed s) (<[a := at_set_tasks (at_tasks x ++ [TStart r]) x]> (m_att s)) (m_log s ++ [CNext a i err]) in
      match err with
      | Some e => Some (done (Some e))
      | None =>
        if Nat.leb (length (at_fns x) - 1) i then Some (done None)
        else match at_fns x !! S i with
             | Some f => Some (MSt (m_fns s) (m_closed s) (<[a := at_set_inv (at_inv x ++ [S i]) x]> (m_att s)) (m_log s ++ [CNext a i err; CInv a (S i) f]))
             | None => None
             end
      end
    end
  end.
(** The goroutine of the completion callback: namespace.go:276-301, socket.go:757-766.
    Writing the packet tests ReadyState() again (Client._packet, client.go:163). *)
Definition mtask (md : mode) (a : nat) (x : att) (t : tpc) (s : mst) : option (tpc * list mev) :=
  let open := negb (bool_decide (at_gate x ∈ m_closed s)) in
  match md, t with
  | NsMode, TStart err =>
      if open then match err with Some e => Some (TRefuse e, [CClean a]) | None => Some (TGo, []) end
      else Some (TDone, [CClean a])
  | NsMode, TRefuse e => Some (TDone, if open then [CErrPkt a (err_payload (at_p3 x) e)] else [])
  | EvMode, TStart (Some e) => Some (TDone, [CErrEv a e])
  | EvMode, TStart None => if open then Some (TGo, []) else Some (TDone, [CDrop a])
  | EvMode, TRefuse _ => None
  | _, TGo => Some (TDone, [CGo a])
  | _, TDone => None
  end.
Definition mstep (md : mode) (l : mlabel) (s : mst) : option mst :=
  match l with
  | MUse f => Some (MSt (m_fns s ++ [f]) (m_closed s) (m_att s) (m_log s))
  | MStart g skip p3 => Some (mstart md g skip p3 s)
  | MNext a k err => mnext a k err s
  | MClose g => Some (MSt (m_fns s) ({[g]} ∪ m_closed s) (m_att s) (m_log s))
  | MTask a j =>
    match m_att s !! a with
    | None => None
    | Some x =>
      match at_tasks x !! j with
      | None => None
      | Some t =>
        match mtask md a x t s with
        | None => None
        | Some (t', evs) => Some (MSt (m_fns s) (m_closed s) (<[a := at_set_tasks (<[j := t']> (at_tasks x)) x]> (m_att s)) (m_log s ++ evs))
        end
      end
    end
  end.
Fixpoint mexec (md : mode) (ls : list mlabel) (s : mst) : option mst :=
  match ls with [] => Some s | l :: ls => match mstep md l s with Some s' => mexec md ls s' | None => None end end.
