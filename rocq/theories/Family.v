(** A parent namespace with its children: every method of the parent.
    Source: socket/parent-namespace.go:66-75 (InitAdapter, Emit), 77-114 (CreateChild, its clean-up, FetchSockets),
    socket/parent-broadcast-adapter.go:39-43 (Broadcast; all other methods are those of the base adapter, socket/adapter.go:145-306, on the
    table of the parent, which has no sockets), socket/namespace.go:403-432, 480-560 (the methods a parent inherits make operators of its own
    adapter), socket/broadcast-operator.go:175-255 (Emit), 274-380 (the bulk operations and queries).
    Simplifications: operations are atomic; the replies of clients and the timer come after the broadcast with acknowledgement returned
    ([BcastAck.v] has the other orders); when a child is dropped is in [System.v]. *)
From Verif Require Import Base GoTypes Rooms Adapter AdapterRun BcastAck.

(** [fa_own]: the namespace and the adapter of the parent; [fa_kids]: its children; [fa_count]: how many emissions with callback were made on
    it; [fa_asks]: the collections of replies, each with the number of the emission whose callback it calls. *)
Record family (P : Type) := Family { fa_own : nspace P; fa_kids : gmap nat (nspace P); fa_count : nat; fa_asks : list (nat * bst) }.
Arguments Family {P}. Arguments fa_own {P}. Arguments fa_kids {P}. Arguments fa_count {P}. Arguments fa_asks {P}.

(** [ks]: the order of the keys of the set of children. *)
Inductive fop (P : Type) :=
  | FCreate (n : nat) | FDrop (n : nat) | FChild (n : nat) (op : nsop P)
  | FEmit (p : P) (ks : gset nat → list nat) (os : nat → orders)                          (* parent.Emit(ev, ...) *)
  | FVia (p : P) (ks : gset nat → list nat) (os : nat → orders) (opts : option bopts)     (* parent.To(...).Emit(ev, ...) *)
  | FEmitAck (p : P) (ks : gset nat → list nat) (os : nat → orders)                       (* parent.Emit(ev, ..., ack) *)
  | FViaAck (p : P) (o : orders) (opts : option bopts)                                    (* parent.To(...).Emit(ev, ..., ack) *)
  | FJoin (o : orders) (opts : option bopts) (rs : list room)                             (* parent.SocketsJoin, parent.To(...).SocketsJoin *)
  | FLeave (o : orders) (opts : option bopts) (rs : list room)
  | FDisconnect (o : orders) (opts : option bopts)
  | FAnswer (i : nat) (r : option (list value)).                                          (* a reply to collection i, or its timer *)
Arguments FCreate {P}. Arguments FDrop {P}. Arguments FChild {P}. Arguments FEmit {P}. Arguments FVia {P}. Arguments FEmitAck {P}.
Arguments FViaAck {P}. Arguments FJoin {P}. Arguments FLeave {P}. Arguments FDisconnect {P}. Arguments FAnswer {P}.

(** NewBroadcastOperator(adapter, nil, nil, nil), socket/broadcast-operator.go:39-50. *)
Definition all_children_opts : option bopts := Some (BOpts (Some ∅) (Some ∅) (Some no_flags)).
Definition answer (r : option (list value)) : bevent := match r with Some a => EbReply a | None => EbTimer end.

Section family.
  Context {P : Type} (rep : bool).
  Notation st := (family P).
  Definition empty_ns : nspace P := NSpace empty_registry ∅ [] [].
  Definition set_own v (s : st) : st := Family v (fa_kids s) (fa_count s) (fa_asks s).
  Definition set_kids v (s : st) : st := Family (fa_own s) v (fa_count s) (fa_asks s).
  Definition each (ks : gset nat → list nat) (f : nat → st → st) (s : st) : st := foldl (λ s n, f n s) s (ks (dom (fa_kids s))).
  Definition kid_emit (p : P) (os : nat → orders) (opts : option bopts) (n : nat) (s : st) : st := set_kids (alter (broadcast p (os n) opts) n (fa_kids s)) s.
  (** BroadcastWithAck of an adapter with one server, socket/adapter.go:172-200, broadcast-operator.go:236-253: the packet, the number of
      clients, the number of servers. *)
  Definition ask (j : nat) (p : P) (o : orders) (opts : option bopts) (ns : nspace P) : nspace P * (nat * bst) :=
    let x := apply_ns (sock_write p) o opts ns in (x.1, (j, bserial 1 false [EbCount (length x.2); EbFinish])).
  Definition kid_ask (j : nat) (p : P) (os : nat → orders) (n : nat) (s : st) : st :=
    match fa_kids s !! n with
    | Some ns => let x := ask j p (os n) all_children_opts ns in Family (fa_own s) (<[n := x.1]> (fa_kids s)) (fa_count s) (fa_asks s ++ [x.2])
    | None => s
    end.
  Definition counted (s : st) : st := Family (fa_own s) (fa_kids s) (S (fa_count s)) (fa_asks s).
  Definition f_step (s : st) (op : fop P) : st :=
    match op with
    | FCreate n => match fa_kids s !! n with Some _ => s | None => set_kids (<[n := empty_ns]> (fa_kids s)) s end
    | FDrop n => set_kids (delete n (fa_kids s)) s
    | FChild n op => set_kids (alter (λ ns, ns_step rep ns op) n (fa_kids s)) s
    | FEmit p ks os => each ks (kid_emit p os all_children_opts) s
    | FVia p ks os opts => each ks (kid_emit p os opts) s
    | FEmitAck p ks os => counted (each ks (kid_ask (fa_count s) p os) s)
    | FViaAck p o opts => let x := ask (fa_count s) p o opts (fa_own s) in counted (Family x.1 (fa_kids s) (fa_count s) (fa_asks s ++ [x.2]))
    | FJoin o opts rs => set_own (add_sockets o opts rs (fa_own s)) s
    | FLeave o opts rs => set_own (del_sockets rep o opts rs (fa_own s)) s
    | FDisconnect o opts => set_own (disconnect_sockets rep o opts (fa_own s)) s
    | FAnswer i r => Family (fa_own s) (fa_kids s) (fa_count s) (alter (λ a, (a.1, bserial1 1 false a.2 (answer r))) i (fa_asks s))
    end.
  Definition f_run (h : list (fop P)) : st := foldl f_step (Family empty_ns ∅ 0 []) h.
  (** FetchSockets of an operator of the parent (parent.FetchSockets itself reports an error), AllSockets. *)
  Definition f_fetch (o : orders) (opts : option bopts) (s : st) : list sid := fetch_sockets o opts (fa_own s).
  Definition f_all (o : orders) (rooms : option (gset room)) (s : st) : gset sid := sockets_in o rooms (fa_own s).
  (** What the callback of emission [j] was called with. *)
  Definition f_calls (j : nat) (s : st) : list bcall := mjoin ((λ a, b_calls a.2) <$> filter (λ a, a.1 = j) (fa_asks s)).
End family.
