(** Model of one namespace with its in-memory adapter: selection, broadcast and
    bulk operations.  Source: socket/adapter.go:145-306.
    Simplification: a socket is reduced to what these functions use; the full
    socket lifecycle is in [System.v]. *)
From Verif Require Import Base GoTypes Rooms.

(** What the adapter uses of a socket (socket/socket.go:85, 121). *)
Record asock := ASock { as_id : sid; as_can_join : bool }.

(** A namespace: adapter tables, [sockets] (socket/namespace.go), the room events
    emitted so far and the packets handed to each socket's client, in order. *)
Record nspace (P : Type) := NSpace {
  ns_reg : registry;
  ns_sockets : gmap sid asock;
  ns_events : list room_event;
  ns_written : list (sid * P)
}.
Arguments NSpace {P}. Arguments ns_reg {P}. Arguments ns_sockets {P}.
Arguments ns_events {P}. Arguments ns_written {P}.

(** Iteration orders used by one call (see [Base.order]). *)
Record orders := Orders { o_rooms : order; o_ids : room → order; o_sids : order; o_leave : sid → order }.
Definition orders_ok (o : orders) : Prop :=
  order_ok (o_rooms o) ∧ (∀ r, order_ok (o_ids o r)) ∧ order_ok (o_sids o) ∧ (∀ id, order_ok (o_leave o id)).
Definition orders_std : orders := Orders ord_std (λ _, ord_std) ord_std (λ _, ord_std).
Definition orders_rev : orders := Orders ord_rev (λ _, ord_rev) ord_rev (λ _, ord_rev).

Section adapter.
  Context {P : Type}.
  Notation st := (nspace P).

  Definition upd_reg (f : registry → registry * list room_event) (s : st) : st :=
    let '(g, l) := f (ns_reg s) in NSpace g (ns_sockets s) (ns_events s ++ l) (ns_written s).

  (** Socket.Join, socket/socket.go:473-480 ([types.NewSet(rooms...)] deduplicates;
      the order of its keys is that of the list given). *)
  Definition sock_join (rs : list room) (a : asock) (s : st) : st :=
    if as_can_join a then upd_reg (add_all (as_id a) (remove_dups rs)) s else s.
  (** Socket.Leave, socket/socket.go:495-498. *)
  Definition sock_leave (rep : bool) (r : room) (a : asock) (s : st) : st :=
    upd_reg (del rep (as_id a) r) s.
  (** Body of DelSockets, socket/adapter.go:255-259. *)
  Definition sock_leave_list (rep : bool) (rs : list room) (a : asock) (s : st) : st :=
    foldl (λ s r, sock_leave rep r a s) s rs.
  (** Socket.Disconnect(false) as far as this namespace is concerned:
      _onclose -> _cleanup -> leaveAll, Remove (socket/socket.go:642-646).
      The packet, the events and the client are in [System.v]. *)
  Definition sock_close (rep : bool) (o : sid → order) (a : asock) (s : st) : st :=
    let s' := upd_reg (del_all rep (o (as_id a)) (as_id a)) s in
    NSpace (ns_reg s') (delete (as_id a) (ns_sockets s')) (ns_events s') (ns_written s').
  (** WriteToEngine of the pre-encoded packet, socket/adapter.go:162; whether the
      client's transport takes it is in [Client.v]. *)
  Definition sock_write (p : P) (a : asock) (s : st) : st :=
    NSpace (ns_reg s) (ns_sockets s) (ns_events s) (ns_written s ++ [(as_id a, p)]).

  Definition apply_ns (cb : asock → st → st) (o : orders) (opts : option bopts) (s : st) : st * list sid :=
    match opts with
    | None => apply_sockets ns_reg ns_sockets cb (o_rooms o) (o_ids o) (o_sids o) (Some ∅) (Some ∅) s
    | Some op => apply_sockets ns_reg ns_sockets cb (o_rooms o) (o_ids o) (o_sids o) (bo_rooms op) (bo_except op) s
    end.

  (** Broadcast, socket/adapter.go:145-164. *)
  Definition broadcast (p : P) (o : orders) (opts : option bopts) (s : st) : st :=
    (apply_ns (sock_write p) o opts s).1.
  (** Sockets, socket/adapter.go:219-225: the result is a set of ids. *)
  Definition sockets_in (o : orders) (rooms : option (gset room)) (s : st) : gset sid :=
    list_to_set (apply_ns (λ _ s, s) o (Some (BOpts rooms None None)) s).2.
  (** FetchSockets, socket/adapter.go:236-244: the list passed to the callback. *)
  Definition fetch_sockets (o : orders) (opts : option bopts) (s : st) : list sid :=
    (apply_ns (λ _ s, s) o opts s).2.
  (** AddSockets, socket/adapter.go:247-251. *)
  Definition add_sockets (o : orders) (opts : option bopts) (rs : list room) (s : st) : st :=
    (apply_ns (sock_join rs) o opts s).1.
  (** DelSockets, socket/adapter.go:254-260. *)
  Definition del_sockets (rep : bool) (o : orders) (opts : option bopts) (rs : list room) (s : st) : st :=
    (apply_ns (sock_leave_list rep rs) o opts s).1.
  (** DisconnectSockets, socket/adapter.go:263-267, restricted to this namespace. *)
  Definition disconnect_sockets (rep : bool) (o : orders) (opts : option bopts) (s : st) : st :=
    (apply_ns (sock_close rep (o_leave o)) o opts s).1.
End adapter.
