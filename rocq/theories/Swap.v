(** A namespace whose adapter is replaced while it is in use.
    Source: socket/server.go:260-267 (SetAdapter), socket/namespace.go:160-162 (InitAdapter: the namespace gets a new adapter, the old one
    is neither closed nor emptied), socket/socket.go:117, 212 (a socket keeps the adapter it was created with), 473-503 (and joins and
    leaves rooms there), 1014 (and its operators broadcast through it), socket/broadcast-operator.go:15 (an operator keeps its adapter),
    socket/adapter.go:145-306 (every adapter looks the sockets up in the table of the namespace).
    Simplifications: as in [AdapterRun.v], whose operations these are; an operation on a socket that was closed does nothing. *)
From Verif Require Import Base GoTypes Rooms Adapter AdapterRun.

(** [sw_regs]: the adapters made so far, the last one is that of the namespace; [sw_home]: the field adapter of every socket ever created;
    [sw_socks]: the sockets of the namespace. *)
Record swap (P : Type) := Swap {
  sw_regs : list registry; sw_home : gmap sid nat; sw_socks : gmap sid asock; sw_written : list (sid * P) }.
Arguments Swap {P}. Arguments sw_regs {P}. Arguments sw_home {P}. Arguments sw_socks {P}. Arguments sw_written {P}.

(** Through which adapter a broadcast or bulk operation goes: that of the namespace, that of an operator made when adapter [e] was the
    current one, that of a socket. *)
Inductive via := VNow | VKept (e : nat) | VSock (id : sid).
Inductive wop (P : Type) :=
  | WSet                                                     (* SetAdapter *)
  | WOpen (id : sid) | WJoin (id : sid) (rs : list room) | WLeave (id : sid) (r : room) | WClose (id : sid) (o : order)
  | WBroadcast (v : via) (p : P) (o : orders) (opts : option bopts)
  | WAddSockets (v : via) (o : orders) (opts : option bopts) (rs : list room)
  | WDelSockets (v : via) (o : orders) (opts : option bopts) (rs : list room)
  | WDisconnectSockets (v : via) (o : orders) (opts : option bopts).
Arguments WSet {P}. Arguments WOpen {P}. Arguments WJoin {P}. Arguments WLeave {P}. Arguments WClose {P}. Arguments WBroadcast {P}.
Arguments WAddSockets {P}. Arguments WDelSockets {P}. Arguments WDisconnectSockets {P}.

Section swap.
  Context {P : Type} (rep : bool).
  Notation st := (swap P).
  Definition sw_now (s : st) : nat := pred (length (sw_regs s)).
  Definition sw_reg (e : nat) (s : st) : registry := default empty_registry (sw_regs s !! e).
  Definition sw_upd (e : nat) (f : registry → registry) (s : st) : st := Swap (alter f e (sw_regs s)) (sw_home s) (sw_socks s) (sw_written s).
  (** The adapter of a socket. *)
  Definition at_home (a : asock) (f : registry → registry) (s : st) : st :=
    match sw_home s !! as_id a with Some e => sw_upd e f s | None => s end.
  (** Join, Leave, the end of a socket, a packet written: socket/socket.go:473-503, 642-646. *)
  Definition w_join (rs : list room) (a : asock) (s : st) : st :=
    if as_can_join a then at_home a (λ g, (add_all (as_id a) (remove_dups rs) g).1) s else s.
  Definition w_leave (r : room) (a : asock) (s : st) : st := at_home a (λ g, (del rep (as_id a) r g).1) s.
  Definition w_leave_list (rs : list room) (a : asock) (s : st) : st := foldl (λ s r, w_leave r a s) s rs.
  Definition w_close (o : sid → order) (a : asock) (s : st) : st :=
    let s := at_home a (λ g, (del_all rep (o (as_id a)) (as_id a) g).1) s in
    Swap (sw_regs s) (sw_home s) (delete (as_id a) (sw_socks s)) (sw_written s).
  Definition w_write (p : P) (a : asock) (s : st) : st := Swap (sw_regs s) (sw_home s) (sw_socks s) (sw_written s ++ [(as_id a, p)]).
  (** apply of adapter [e], socket/adapter.go:269-306. *)
  Definition w_apply (e : nat) (cb : asock → st → st) (o : orders) (opts : option bopts) (s : st) : st :=
    match opts with
    | None => (apply_sockets (sw_reg e) sw_socks cb (o_rooms o) (o_ids o) (o_sids o) (Some ∅) (Some ∅) s).1
    | Some op => (apply_sockets (sw_reg e) sw_socks cb (o_rooms o) (o_ids o) (o_sids o) (bo_rooms op) (bo_except op) s).1
    end.
  Definition w_via (v : via) (s : st) : option nat :=
    match v with VNow => Some (sw_now s) | VKept e => if decide (e ≤ sw_now s) then Some e else None | VSock id => sw_home s !! id end.
  Definition w_on (v : via) (cb : asock → st → st) (o : orders) (opts : option bopts) (s : st) : st :=
    match w_via v s with Some e => w_apply e cb o opts s | None => s end.
  Definition w_sock (id : sid) (f : asock → st → st) (s : st) : st := match sw_socks s !! id with Some a => f a s | None => s end.
  Definition w_step (s : st) (op : wop P) : st :=
    match op with
    | WSet => Swap (sw_regs s ++ [empty_registry]) (sw_home s) (sw_socks s) (sw_written s)
    | WOpen id => w_join [id] (ASock id true) (Swap (sw_regs s) (<[id := sw_now s]> (sw_home s)) (<[id := ASock id true]> (sw_socks s)) (sw_written s))
    | WJoin id rs => w_sock id (w_join rs) s
    | WLeave id r => w_sock id (w_leave r) s
    | WClose id o => w_sock id (w_close (λ _, o)) s
    | WBroadcast v p o opts => w_on v (w_write p) o opts s
    | WAddSockets v o opts rs => w_on v (w_join rs) o opts s
    | WDelSockets v o opts rs => w_on v (w_leave_list rs) o opts s
    | WDisconnectSockets v o opts => w_on v (w_close (o_leave o)) o opts s
    end.
  Definition w_run (h : list (wop P)) : st := foldl w_step (Swap [empty_registry] ∅ ∅ []) h.
End swap.
