(** Model of broadcast operators and of the per-socket modifiers, with the pointer
    structure made explicit.  Sources: socket/broadcast-operator.go,
    socket/socket.go:280-314, 346-361, 383-440, 691-750, 1011-1015,
    socket/namespace.go:403-405, 460-466, socket/remote-socket.go:57-65. *)
From Verif Require Import Base GoTypes.

(** Heap cells reachable through pointers: room sets and flag records. *)
Record heap := Heap {
  h_sets : gmap nat (gset room);
  h_flags : gmap nat flags;
  h_next : nat
}.
Definition alloc_set (X : gset room) (h : heap) : nat * heap :=
  (h_next h, Heap (<[h_next h := X]> (h_sets h)) (h_flags h) (S (h_next h))).
Definition alloc_flags (f : flags) (h : heap) : nat * heap :=
  (h_next h, Heap (h_sets h) (<[h_next h := f]> (h_flags h)) (S (h_next h))).
Definition get_set (h : heap) (a : nat) : gset room := default ∅ (h_sets h !! a).
Definition get_flags (h : heap) (a : nat) : flags := default no_flags (h_flags h !! a).
(** In-place write through a flags pointer ([s.flags.Load().Compress = ...]). *)
Definition write_flags (a : nat) (f : flags) (h : heap) : heap :=
  Heap (h_sets h) (<[a := f]> (h_flags h)) (h_next h).

(** BroadcastOperator, socket/broadcast-operator.go:14-19: the adapter (identified
    by a number) and three pointers. *)
Record operator := Operator { op_adapter : nat; op_rooms : nat; op_except : nat; op_flags : nat }.

(** MakeBroadcastOperator + Construct, socket/broadcast-operator.go:21-50. *)
Definition new_operator (ad : nat) (rooms except fl : option nat) (h : heap) : operator * heap :=
  let '(a1, h) := alloc_set ∅ h in
  let '(a2, h) := alloc_set ∅ h in
  let '(a3, h) := alloc_flags no_flags h in
  (Operator ad (default a1 rooms) (default a2 except) (default a3 fl), h).

(** The calls that derive an operator from an operator. *)
Inductive modif :=
  | MTo (rs : list room) | MIn (rs : list room) | MExcept (rs : list room)
  | MCompress (b : bool) | MVolatile | MLocal | MTimeout (t : N).

(** To, socket/broadcast-operator.go:67-71. *)
Definition op_to (rs : list room) (b : operator) (h : heap) : operator * heap :=
  let '(a, h) := alloc_set (get_set h (op_rooms b) ∪ list_to_set rs) h in
  new_operator (op_adapter b) (Some a) (Some (op_except b)) (Some (op_flags b)) h.
(** Except, socket/broadcast-operator.go:100-104. *)
Definition op_exc (rs : list room) (b : operator) (h : heap) : operator * heap :=
  let '(a, h) := alloc_set (get_set h (op_except b) ∪ list_to_set rs) h in
  new_operator (op_adapter b) (Some (op_rooms b)) (Some a) (Some (op_flags b)) h.
(** Compress, Volatile, Local, Timeout, socket/broadcast-operator.go:113-157: copy
    the flags, modify the copy. *)
Definition op_flag (f : flags → flags) (b : operator) (h : heap) : operator * heap :=
  let '(a, h) := alloc_flags (f (get_flags h (op_flags b))) h in
  new_operator (op_adapter b) (Some (op_rooms b)) (Some (op_except b)) (Some a) h.
Definition op_modif (m : modif) (b : operator) (h : heap) : operator * heap :=
  match m with
  | MTo rs => op_to rs b h
  | MIn rs => op_to rs b h     (* In, socket/broadcast-operator.go:83-85 *)
  | MExcept rs => op_exc rs b h
  | MCompress c => op_flag (set_compress c) b h
  | MVolatile => op_flag set_volatile b h
  | MLocal => op_flag set_local b h
  | MTimeout t => op_flag (set_timeout t) b h
  end.

(** A socket's id, adapter and flags pointer ([flags atomic.Pointer[BroadcastFlags]],
    socket/socket.go:117). *)
Record osock := OSock { os_id : sid; os_adapter : nat; os_flags : nat }.

(** newBroadcastOperator, socket/socket.go:1011-1015. *)
Definition sock_operator (s : osock) (h : heap) : operator * osock * heap :=
  let f := get_flags h (os_flags s) in
  let '(a0, h) := alloc_flags no_flags h in            (* s.flags.Store(&BroadcastFlags{}) *)
  let '(ar, h) := alloc_set ∅ h in
  let '(ae, h) := alloc_set {[os_id s]} h in
  let '(af, h) := alloc_flags f h in
  let '(b, h) := new_operator (os_adapter s) (Some ar) (Some ae) (Some af) h in
  (b, OSock (os_id s) (os_adapter s) a0, h).

(** Compress, Volatile, Timeout on a socket, socket/socket.go:691-694, 705-708, 747-750. *)
Definition sock_flag (f : flags → flags) (s : osock) (h : heap) : heap :=
  write_flags (os_flags s) (f (get_flags h (os_flags s))) h.

(** What an Emit hands to the layers below. *)
Inductive emission :=
  (** adapter.Broadcast(packet, opts) *)
  | EBroadcast (ad : nat) (data : list value) (o : bopts)
  (** adapter.BroadcastWithAck(packet, opts, ...), acknowledgement function [ack] *)
  | EBroadcastAck (ad : nat) (data : list value) (o : bopts) (ack : nat)
  (** s.packet(packet, flags): written to this socket's client only *)
  | EPacket (id : sid) (data : list value) (ackid : option N) (f : flags)
  (** adapter.ServerSideEmit(packet) *)
  | EServerSide (ad : nat) (data : list value).

(** [data[data_len-1].(Ack)]: the last element of ev::args when it is a function. *)
Definition last_ack (data : list value) : option nat :=
  match last data with Some (VAck n) => Some n | _ => None end.

(** BroadcastOperator.Emit, socket/broadcast-operator.go:175-252, up to the call to
    the adapter (the aggregation of replies is in [BcastAck.v]).
    [None]: an error is returned and nothing was done. *)
Definition op_emit (ev : string) (args : list value) (b : operator) (h : heap) : option emission :=
  if decide (ev ∈ socket_reserved) then None else
  let data := VStr ev :: args in
  let o := BOpts (Some (get_set h (op_rooms b))) (Some (get_set h (op_except b))) (Some (get_flags h (op_flags b))) in
  match last_ack data with
  | None => Some (EBroadcast (op_adapter b) data o)
  | Some ack => Some (EBroadcastAck (op_adapter b) (removelast data) o ack)
  end.

(** Namespace.ServerSideEmit, socket/namespace.go:460-466. *)
Definition nsp_server_side_emit (ad : nat) (ev : string) (args : list value) : option emission :=
  if decide (ev ∈ namespace_reserved) then None else Some (EServerSide ad (VStr ev :: args)).

(** Socket.Emit, socket/socket.go:280-314.  [csr]: connection state recovery is
    configured.  [next_id] is the value returned by nsp.Ids(), used only with an
    acknowledgement.  Returns the emission, the acknowledgement to register (id,
    function, timeout), the socket and the heap.  [None]: error, nothing done. *)
Definition sock_emit (csr : bool) (next_id : N) (ev : string) (args : list value) (s : osock) (h : heap) :
    option (emission * option (N * nat * option N) * osock * heap) :=
  if decide (ev ∈ socket_reserved) then None else
  let data := VStr ev :: args in
  let f := get_flags h (os_flags s) in
  let '(data, reg) := match last_ack data with
                      | Some n => (removelast data, Some (next_id, n, fl_timeout f))
                      | None => (data, None)
                      end in
  let '(a0, h) := alloc_flags no_flags h in            (* s.flags.Store(&BroadcastFlags{}) *)
  let s' := OSock (os_id s) (os_adapter s) a0 in
  let e := if csr then EBroadcast (os_adapter s) data (BOpts (Some {[os_id s]}) (Some ∅) (Some f))
           else EPacket (os_id s) data (fst ∘ fst <$> reg) f in
  Some (e, reg, s', h).

(** RemoteSocket.Construct, socket/remote-socket.go:57-65 (the operator it embeds). *)
Definition remote_operator (ad : nat) (id : sid) (h : heap) : operator * heap :=
  let '(ar, h) := alloc_set {[id]} h in
  let '(ae, h) := alloc_set ∅ h in
  let '(af, h) := alloc_flags (Flags false false false false false false None true) h in
  new_operator ad (Some ar) (Some ae) (Some af) h.

(** A world: a heap, the operators created so far, the sockets. *)
Record world := World { w_heap : heap; w_ops : list operator; w_socks : gmap nat osock }.

Inductive call :=
  | CNsp (ad : nat)                                   (* NewBroadcastOperator(adapter, nil, nil, nil) *)
  | CRemote (ad : nat) (id : sid)                     (* NewRemoteSocket *)
  | CSocket (k : nat) (id : sid) (ad : nat)           (* MakeSocket: a new socket, socket/socket.go:125-138 *)
  | CFromSocket (k : nat)                             (* socket.Broadcast() *)
  | CSockFlag (k : nat) (m : modif)                   (* socket.Compress/Volatile/Timeout *)
  | CSockEmit (k : nat) (csr : bool) (i : N) (ev : string) (args : list value)
  | CModif (i : nat) (m : modif)                      (* i-th operator.To/In/... *)
  | COpEmit (i : nat) (ev : string) (args : list value).

Definition modif_flags (m : modif) : flags → flags :=
  match m with
  | MCompress b => set_compress b | MVolatile => set_volatile | MLocal => set_local | MTimeout t => set_timeout t
  | MTo _ | MIn _ | MExcept _ => id
  end.

Definition run_call (c : call) (w : world) : world * option emission :=
  match c with
  | CNsp ad => let '(b, h) := new_operator ad None None None (w_heap w) in (World h (w_ops w ++ [b]) (w_socks w), None)
  | CRemote ad id => let '(b, h) := remote_operator ad id (w_heap w) in (World h (w_ops w ++ [b]) (w_socks w), None)
  | CSocket k id ad =>
      match w_socks w !! k with
      | Some _ => (w, None)
      | None => let '(a, h) := alloc_flags no_flags (w_heap w) in
                (World h (w_ops w) (<[k := OSock id ad a]> (w_socks w)), None)
      end
  | CFromSocket k =>
      match w_socks w !! k with
      | Some s => let '(b, s', h) := sock_operator s (w_heap w) in
                  (World h (w_ops w ++ [b]) (<[k := s']> (w_socks w)), None)
      | None => (w, None)
      end
  | CSockFlag k m =>
      match w_socks w !! k with
      | Some s => (World (sock_flag (modif_flags m) s (w_heap w)) (w_ops w) (w_socks w), None)
      | None => (w, None)
      end
  | CSockEmit k csr i ev args =>
      match w_socks w !! k with
      | Some s => match sock_emit csr i ev args s (w_heap w) with
                  | Some (e, _, s', h) => (World h (w_ops w) (<[k := s']> (w_socks w)), Some e)
                  | None => (w, None)
                  end
      | None => (w, None)
      end
  | CModif i m =>
      match w_ops w !! i with
      | Some b => let '(b', h) := op_modif m b (w_heap w) in (World h (w_ops w ++ [b']) (w_socks w), None)
      | None => (w, None)
      end
  | COpEmit i ev args =>
      match w_ops w !! i with
      | Some b => (w, op_emit ev args b (w_heap w))
      | None => (w, None)
      end
  end.
Definition run_calls (cs : list call) (w : world) : world := foldl (λ w c, (run_call c w).1) w cs.
Definition world0 : world := World (Heap ∅ ∅ 0) [] ∅.
