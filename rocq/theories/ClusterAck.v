(** Model of broadcasts with acknowledgement in a cluster: several servers that share one namespace.
    Source: adapter/cluster-adapter.go:76-117 (OnMessage), 226-248 (OnResponse), 331-363
    (BroadcastWithAck), 539-566 (Publish, PublishResponse), socket/adapter.go:172-200 (BroadcastWithAck
    of the base adapter), socket/socket.go:585-597 (onack), socket/broadcast-operator.go:202-252 (the two
    callbacks and the timer of Emit: [BcastAck.v]).
    Granularity: every call and every handler is atomic; messages arrive in any order (the transport is
    part of the state, as in [Cluster.v]); timers fire at any time.
    Simplifications: a message is copied by the transport (it does not share the packet with the sender);
    the data of the packet are not followed (C38 is about them).  Fields marked ghost are not in the code. *)
From Verif Require Import Base GoTypes Rooms Adapter Cluster BcastAck.

(** The function stored in socket.Acks(): the callback of call number [tag] on the same server, or one
    that sends the answer to the server that asked (cluster-adapter.go:106-115; [tag] ghost). *)
Inductive cont := Here (tag : nat) | There (uid rid : string) (tag : nat).
(** ClusterMessage BROADCAST with a RequestId; BROADCAST_CLIENT_COUNT; BROADCAST_ACK.  [tag] and [who]
    (the socket that answered) are ghosts. *)
Inductive amsg :=
  | AReq (uid rid : string) (opts : popts) (tag : nat)
  | ACnt (uid rid : string) (n : nat) (tag : nat)
  | AAns (uid rid : string) (args : list value) (tag : nat) (who : sid).
(** One server.  Written packets: number of the call (ghost) and packet.Id.  [an_ids]: nsp.Ids();
    [an_acks]: the acks of its sockets, by socket and packet id; [an_reqs]: ackRequests. *)
Record anode := ANode {
  an_ns : nspace (nat * nat); an_ids : nat; an_acks : gmap (sid * nat) cont; an_reqs : gmap string nat }.
(** An event of the Emit with number [en_call]: a callback called or its timer fired.  [en_from], [en_who]:
    the server and the socket it comes from (ghosts). *)
Record entry := Entry { en_call : nat; en_from : string; en_who : option sid; en_ev : bevent }.
(** [ac_lost] (ghost): answers that arrived when the request was no longer known. *)
Record acluster := ACl {
  ac_nodes : gmap string anode; ac_net : list (string * amsg); ac_log : list entry; ac_lost : list amsg; ac_step : nat }.

Inductive aop :=
  | ACall (n rid : string) (opts : option bopts)
      (pub : bool)                     (* does DoPublish succeed *)
      (echo : bool)                    (* does the transport deliver the message to its sender as well *)
      (e1 e2 : order) (os : orders)    (* Emit with acknowledgement on server n; rid: RandomId() *)
  | ADeliver (i : nat) (os : orders)   (* the transport delivers the i-th message on its way *)
  | AClient (n : string) (id : sid) (pid : nat) (args : list value)   (* the client answers packet pid *)
  | AExpire (n rid : string)           (* the timer of cluster-adapter.go:357-359 *)
  | ATimer (tag : nat)                 (* the timer of the Emit, broadcast-operator.go:207-214 *)
  | ALocal (n : string) (l : lop).     (* what happens to sockets on their own account *)

Definition upd_ns (f : nspace (nat * nat) → nspace (nat * nat)) (nd : anode) : anode := ANode (f (an_ns nd)) (an_ids nd) (an_acks nd) (an_reqs nd).
Definition set_acks (f : gmap (sid * nat) cont → gmap (sid * nat) cont) (nd : anode) : anode := ANode (an_ns nd) (an_ids nd) (f (an_acks nd)) (an_reqs nd).
Definition set_reqs (f : gmap string nat → gmap string nat) (nd : anode) : anode := ANode (an_ns nd) (an_ids nd) (an_acks nd) (f (an_reqs nd)).
Definition on_anode (n : string) (f : anode → anode) (s : acluster) : acluster :=
  ACl (alter f n (ac_nodes s)) (ac_net s) (ac_log s) (ac_lost s) (ac_step s).
Definition send (l : list (string * amsg)) (s : acluster) : acluster := ACl (ac_nodes s) (ac_net s ++ l) (ac_log s) (ac_lost s) (ac_step s).
Definition note (e : entry) (s : acluster) : acluster := ACl (ac_nodes s) (ac_net s) (ac_log s ++ [e]) (ac_lost s) (ac_step s).
Definition lose (m : amsg) (s : acluster) : acluster := ACl (ac_nodes s) (ac_net s) (ac_log s) (ac_lost s ++ [m]) (ac_step s).

(** BroadcastWithAck of the base adapter, socket/adapter.go:172-200: one id for all; for every matching
    socket the function is stored and the packet written; the result is clientCount. *)
Definition base_ack (tag : nat) (k : cont) (opts : option bopts) (os : orders) (nd : anode) : anode * nat :=
  let pid := an_ids nd in
  let visit (a : asock) (t : nspace (nat * nat) * gmap (sid * nat) cont * nat) :=
    (sock_write (tag, pid) a t.1.1, <[(as_id a, pid) := k]> t.1.2, S t.2) in
  let rooms := match opts with Some o => bo_rooms o | None => Some ∅ end in
  let except := match opts with Some o => bo_except o | None => Some ∅ end in
  let r := (apply_sockets (λ t, ns_reg t.1.1) (λ t, ns_sockets t.1.1) visit
              (o_rooms os) (o_ids os) (o_sids os) rooms except (an_ns nd, an_acks nd, 0)).1 in
  (ANode r.1.1 (S pid) r.1.2 (an_reqs nd), r.2).

(** BroadcastWithAck, cluster-adapter.go:331-363, called by Emit: broadcast-operator.go:236-252. *)
Definition acall (n rid : string) (opts : option bopts) (pub echo : bool) (e1 e2 : order) (os : orders) (s : acluster) : acluster :=
  let tag := ac_step s in
  match ac_nodes s !! n with
  | None => s
  | Some nd =>
      let nd := if is_local opts then nd else set_reqs <[rid := tag]> nd in
      let '(nd, cnt) := base_ack tag (Here tag) opts os nd in
      let msgs := if negb (is_local opts) && pub
                  then (λ d, (d, AReq n rid (encode_options e1 e2 opts) tag)) <$>
                         elements (if echo then dom (ac_nodes s) else dom (ac_nodes s) ∖ {[n]})
                  else [] in
      note (Entry tag n None EbFinish) (note (Entry tag n None (EbCount cnt)) (send msgs (on_anode n (λ _, nd) s)))
  end.

(** OnMessage and OnResponse of server [d]. *)
Definition areceive (d : string) (m : amsg) (os : orders) (s : acluster) : acluster :=
  match ac_nodes s !! d with
  | None => s
  | Some nd =>
      match m with
      | AReq uid rid po tag =>
          if decide (uid = d) then s
          else let '(nd, cnt) := base_ack tag (There uid rid tag) (Some (decode_options (Some po))) os nd in
               send [(uid, ACnt d rid cnt tag)] (on_anode d (λ _, nd) s)
      | ACnt uid rid cnt tag =>
          match an_reqs nd !! rid with Some e => note (Entry e uid None (EbCount cnt)) s | None => lose m s end
      | AAns uid rid args tag who =>
          match an_reqs nd !! rid with Some e => note (Entry e uid (Some who) (EbReply args)) s | None => lose m s end
      end
  end.

(** onack, socket.go:585-597: the function is called and deleted. *)
Definition aclient (n : string) (id : sid) (pid : nat) (args : list value) (s : acluster) : acluster :=
  match ac_nodes s !! n with
  | None => s
  | Some nd =>
      match an_acks nd !! (id, pid) with
      | None => s
      | Some k =>
          let s := on_anode n (set_acks (delete (id, pid))) s in
          match k with
          | Here e => note (Entry e n (Some id) (EbReply args)) s
          | There uid rid tag => send [(uid, AAns n rid args tag id)] s
          end
      end
  end.

Definition astep_body (op : aop) (s : acluster) : acluster :=
  match op with
  | ACall n rid opts pub echo e1 e2 os => acall n rid opts pub echo e1 e2 os s
  | ADeliver i os =>
      match ac_net s !! i with
      | Some (d, m) => areceive d m os (ACl (ac_nodes s) (delete i (ac_net s)) (ac_log s) (ac_lost s) (ac_step s))
      | None => s
      end
  | AClient n id pid args => aclient n id pid args s
  | AExpire n rid => on_anode n (set_reqs (delete rid)) s
  | ATimer tag => note (Entry tag "" None EbTimer) s
  | ALocal n l => on_anode n (upd_ns (local_op l)) s
  end.
Definition astep (s : acluster) (op : aop) : acluster :=
  let s' := astep_body op s in ACl (ac_nodes s') (ac_net s') (ac_log s') (ac_lost s') (S (ac_step s)).
Definition empty_anode : anode := ANode (NSpace empty_registry ∅ [] []) 0 ∅ ∅.
Definition ainit (uids : gset string) : acluster := ACl (gset_to_gmap empty_anode uids) [] [] [] 0.
Definition arun (uids : gset string) (h : list aop) : acluster := foldl astep (ainit uids) h.
