(** Model of several servers that share one namespace through a cluster adapter: broadcasts and bulk
    operations.  Source: adapter/cluster-adapter.go:76-152, 292-420, 539-570, adapter/util.go:16-49.
    The base adapter on each server is [Adapter.v].
    The transport (DoPublish, implemented outside the repository) is part of the state: a list of
    messages in flight, from which any one may be delivered next.
    Simplifications: each call and each OnMessage is atomic; messages of the request/response types are
    in [ClusterReq.v], broadcasts with acknowledgement in [ClusterAck.v]; a message is copied by the
    transport (it does not share the packet with the sender). *)
From Verif Require Import Base GoTypes Rooms Adapter.

(** PacketOptions, adapter/cluster-adapter-type.go:34-38. *)
Record popts := POpts { po_rooms : list room; po_except : list room; po_flags : option flags }.
(** EncodeOptions, adapter/util.go:16-32. *)
Definition encode_options (o1 o2 : order) (opts : option bopts) : popts :=
  match opts with
  | None => POpts [] [] None
  | Some o => POpts (match bo_rooms o with Some rs => o1 rs | None => [] end)
                    (match bo_except o with Some ex => o2 ex | None => [] end) (bo_flags o)
  end.
(** DecodeOptions, adapter/util.go:35-49. *)
Definition decode_options (p : option popts) : bopts :=
  match p with
  | None => BOpts (Some ∅) (Some ∅) None
  | Some p => BOpts (Some (list_to_set (po_rooms p))) (Some (list_to_set (po_except p))) (po_flags p)
  end.

(** The operations that a cluster adapter forwards. *)
Inductive gop :=
  | GBroadcast (ty : ptype) (ack : bool) (data : list value)   (* ack: the packet has an id *)
  | GJoin (rs : list room)
  | GLeave (rs : list room)
  | GDisconnect.
(** A ClusterMessage in flight.  [cm_tag] is a ghost: the number of the step that published it. *)
Record cmsg := CMsg { cm_uid : string; cm_tag : nat; cm_op : gop; cm_opts : popts; cm_offset : string }.
(** One server: its base adapter and namespace; written packets carry the ghost tag. *)
Notation node := (nspace (nat * list value)).
Record cluster := Cl { cl_nodes : gmap string node; cl_net : list (string * cmsg); cl_step : nat }.

(** What happens to sockets of one server on their own account. *)
Inductive lop :=
  | LOpen (id : sid)                   (* _doConnect: namespace.go:348-353, socket.go:514 *)
  | LJoin (id : sid) (rs : list room)
  | LLeave (id : sid) (r : room)
  | LClose (id : sid) (o : order).
Inductive cop :=
  | CCall (n : string) (g : gop) (opts : option bopts)
      (pub : option string)            (* what DoPublish returns: an offset, or an error *)
      (echo : bool)                    (* does the transport deliver the message to its sender as well *)
      (e1 e2 : order) (os : orders)
  | CDeliver (i : nat) (os : orders)   (* the transport delivers the i-th message in flight *)
  | CLocal (n : string) (l : lop).

Section cluster.
  (** GetRawConnectionStateRecovery() != nil, the same on all servers. *)
  Context (csr : bool).

  Definition is_local (opts : option bopts) : bool :=
    match opts with Some o => match bo_flags o with Some f => fl_local f | None => false end | None => false end.
  (** addOffsetIfNecessary, cluster-adapter.go:315-329; the result is packet.Data. *)
  Definition add_offset (ty : ptype) (ack : bool) (data : list value) (opts : option bopts) (off : string) : list value :=
    let volatile := match opts with Some o => match bo_flags o with Some f => fl_volatile f | None => false end | None => false end in
    if csr && bool_decide (ty = EVENT) && negb ack && negb volatile then data ++ [VStr off] else data.

  (** The call of the base adapter; [off]: the offset to add, if any. *)
  Definition base_op (tag : nat) (g : gop) (opts : option bopts) (off : option string) (os : orders) (s : node) : node :=
    match g with
    | GBroadcast ty ack data =>
        broadcast (tag, match off with Some off => add_offset ty ack data opts off | None => data end) os opts s
    | GJoin rs => add_sockets os opts rs s
    | GLeave rs => del_sockets true os opts rs s
    | GDisconnect => disconnect_sockets true os opts s
    end.

  Definition on_node (n : string) (f : node → node) (s : cluster) : cluster :=
    Cl (alter f n (cl_nodes s)) (cl_net s) (cl_step s).
  (** DoPublish: one copy of the message for every other server. *)
  Definition publish (n : string) (echo : bool) (m : cmsg) (s : cluster) : cluster :=
    Cl (cl_nodes s)
       (cl_net s ++ ((λ d, (d, m)) <$> elements (if echo then dom (cl_nodes s) else dom (cl_nodes s) ∖ {[n]})))
       (cl_step s).

  (** Broadcast, AddSockets, DelSockets, DisconnectSockets, cluster-adapter.go:292-311, 365-420. *)
  Definition call (n : string) (g : gop) (opts : option bopts) (pub : option string) (echo : bool) (e1 e2 : order) (os : orders) (s : cluster) : cluster :=
    if is_local opts then on_node n (base_op (cl_step s) g opts None os) s
    else match pub with
         | Some off =>
             on_node n (base_op (cl_step s) g opts (Some off) os)
               (publish n echo (CMsg n (cl_step s) g (encode_options e1 e2 opts) off) s)
         | None =>
             match g with
             | GBroadcast _ _ _ => s
             | _ => on_node n (base_op (cl_step s) g opts None os) s
             end
         end.

  (** OnMessage, cluster-adapter.go:76-152. *)
  Definition on_message (n : string) (m : cmsg) (os : orders) (s : cluster) : cluster :=
    if decide (cm_uid m = n) then s
    else on_node n (base_op (cm_tag m) (cm_op m) (Some (decode_options (Some (cm_opts m)))) (Some (cm_offset m)) os) s.

  Definition local_op {P} (l : lop) (s : nspace P) : nspace P :=
    match l with
    | LOpen id =>
        match ns_sockets s !! id with
        | Some _ => s
        | None => sock_join [id] (ASock id true) (NSpace (ns_reg s) (<[id := ASock id true]> (ns_sockets s)) (ns_events s) (ns_written s))
        end
    | LJoin id rs => match ns_sockets s !! id with Some a => sock_join rs a s | None => s end
    | LLeave id r => match ns_sockets s !! id with Some a => sock_leave true r a s | None => s end
    | LClose id o => match ns_sockets s !! id with Some a => sock_close true (λ _, o) a s | None => s end
    end.

  Definition cstep_body (op : cop) (s : cluster) : cluster :=
    match op with
    | CCall n g opts pub echo e1 e2 os => call n g opts pub echo e1 e2 os s
    | CDeliver i os =>
        match cl_net s !! i with
        | Some (d, m) => on_message d m os (Cl (cl_nodes s) (delete i (cl_net s)) (cl_step s))
        | None => s
        end
    | CLocal n l => on_node n (local_op l) s
    end.
  Definition cstep (s : cluster) (op : cop) : cluster :=
    let s' := cstep_body op s in Cl (cl_nodes s') (cl_net s') (S (cl_step s)).
  Definition empty_node : node := NSpace empty_registry ∅ [] [].
  Definition cinit (uids : gset string) : cluster := Cl (gset_to_gmap empty_node uids) [] 0.
  Definition crun (uids : gset string) (h : list cop) : cluster := foldl cstep (cinit uids) h.
End cluster.
