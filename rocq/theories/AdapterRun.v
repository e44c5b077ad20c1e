(** Histories of one namespace: sockets are admitted and closed, join and leave rooms, and the operations of [Adapter.v]
    are called, one after another.
    Source: socket/namespace.go:287 (the socket enters the table), socket/socket.go:510-512 (it joins the room of its
    id), 473-503, 642-646, socket/adapter.go:145-267. *)
From Verif Require Import Base GoTypes Rooms RoomsSpec RoomsProofs Adapter AdapterSpec AdapterProofs.

Inductive nsop (P : Type) :=
  | NOpen (id : sid) | NJoin (id : sid) (rs : list room) | NLeave (id : sid) (r : room) | NClose (id : sid) (o : order)
  | NBroadcast (p : P) (o : orders) (opts : option bopts)
  | NAddSockets (o : orders) (opts : option bopts) (rs : list room)
  | NDelSockets (o : orders) (opts : option bopts) (rs : list room)
  | NDisconnectSockets (o : orders) (opts : option bopts).
Arguments NOpen {P}. Arguments NJoin {P}. Arguments NLeave {P}. Arguments NClose {P}. Arguments NBroadcast {P}.
Arguments NAddSockets {P}. Arguments NDelSockets {P}. Arguments NDisconnectSockets {P}.
(** The orders of iteration of a call enumerate every key once. *)
Definition nsop_ok {P} (op : nsop P) : Prop :=
  match op with
  | NClose _ o => order_ok o
  | NBroadcast _ o _ | NAddSockets o _ _ | NDelSockets o _ _ | NDisconnectSockets o _ => orders_ok o
  | _ => True
  end.
(** [rep]: the result of [types.Set.Delete], as in [Rooms.v]. *)
Definition ns_step {P} (rep : bool) (s : nspace P) (op : nsop P) : nspace P :=
  match op with
  | NOpen id => match ns_sockets s !! id with
                | Some _ => s
                | None => sock_join [id] (ASock id true) (NSpace (ns_reg s) (<[id := ASock id true]> (ns_sockets s)) (ns_events s) (ns_written s))
                end
  | NJoin id rs => match ns_sockets s !! id with Some a => sock_join rs a s | None => s end
  | NLeave id r => match ns_sockets s !! id with Some a => sock_leave rep r a s | None => s end
  | NClose id o => match ns_sockets s !! id with Some a => sock_close rep (λ _, o) a s | None => s end
  | NBroadcast p o opts => broadcast p o opts s
  | NAddSockets o opts rs => add_sockets o opts rs s
  | NDelSockets o opts rs => del_sockets rep o opts rs s
  | NDisconnectSockets o opts => disconnect_sockets rep o opts s
  end.
Definition ns_run {P} (rep : bool) (h : list (nsop P)) : nspace P := foldl (ns_step rep) (NSpace empty_registry ∅ [] []) h.
