(** Model of requests between the servers of a cluster, end to end: FetchSockets and ServerSideEmit with the
    heartbeat adapter.  Source: adapter/cluster-adapter-with-heartbeat.go:113-141, 153-340,
    adapter/cluster-adapter.go:76-83, 157-212, 539-570, socket/namespace.go:460-502.
    Every server runs the handlers of [ClusterReq.v] on its tables and the base adapter of [Adapter.v] on its
    sockets; this file adds the messages and the other servers' side.
    Granularity: every call and every handler is atomic; messages arrive in any order, each once (as in
    [Cluster.v]); timers fire at any time.
    Simplifications: the transport hands responses to OnResponse (C43 is about the other way); of a socket
    described in a response only the id and the rooms are kept; the packet of ServerSideEmit is copied.
    Fields marked ghost are not in the code. *)
From Verif Require Import Base GoTypes Rooms Adapter Cluster ClusterReq.

(** SocketDetails in the result of FetchSockets: a socket of the same server is the live object; one of
    another server is a copy of its id and rooms (SocketResponse, cluster-adapter.go:176-186; NewRemoteSocket,
    remote-socket.go:44-50). *)
Definition local_details (id : sid) : value := VStr id.
Definition remote_details {P} (ns : nspace P) (id : sid) : value := VArr [VStr id; VStrs (elements (rooms_of (ns_reg ns) id))].

(** ClusterMessage FETCH_SOCKETS, SERVER_SIDE_EMIT ([tag] ghost: number of the call), and the responses. *)
Inductive fmsg :=
  | QFetch (uid rid : string) (opts : popts)
  | QEmit (uid : string) (rid : option string) (packet : list value) (tag : nat)
  | QResponse (uid : string) (r : cresp).
(** One server.  [fn_heard]: what the listeners of the namespace were called with (with the ghost tag).
    [fn_acks]: the callbacks given to listeners, by server and request; was it called before ([called],
    cluster-adapter.go:195). *)
Record fnode := FNode { fn_ns : nspace (); fn_hb : hstate; fn_heard : list (nat * (string * list value)); fn_acks : gmap (string * string) bool }.
Record fcluster := FCl { fc_nodes : gmap string fnode; fc_net : list (string * fmsg); fc_step : nat }.

Inductive fop :=
  | FFetch (n : string) (cb : nat) (rid : string) (opts : option bopts)
      (pub : bool)                     (* does DoPublish succeed *)
      (echo : bool)                    (* does the transport deliver the message to its sender as well *)
      (e1 e2 : order) (os : orders)    (* FetchSockets on server n; rid: RandomId(); cb: the callback (ghost) *)
  | FEmit (n : string) (ack : option nat) (rid ev : string) (args : list value) (pub echo : bool)
                                       (* ServerSideEmit(ev, args...), with a callback or not *)
  | FDeliver (i : nat) (t : Z) (o : order) (os : orders)   (* the transport delivers the i-th message, at time t *)
  | FAnswer (n u rid : string) (args : list value)         (* a listener on n calls the callback it was given for request rid of u *)
  | FTimer (n rid : string)            (* the timer of a request *)
  | FMessage (n : string) (t : Z) (o : order) (u : string) (m : cmessage)   (* another message: heartbeats, farewells... *)
  | FCheck (n : string) (t : Z) (on o : order)             (* the periodic check *)
  | FLocal (n : string) (l : lop).     (* what happens to sockets on their own account *)

Definition f_ns (f : nspace () → nspace ()) (nd : fnode) : fnode := FNode (f (fn_ns nd)) (fn_hb nd) (fn_heard nd) (fn_acks nd).
Definition f_hb (f : hstate → hstate) (nd : fnode) : fnode := FNode (fn_ns nd) (f (fn_hb nd)) (fn_heard nd) (fn_acks nd).
Definition f_acks (f : gmap (string * string) bool → gmap (string * string) bool) (nd : fnode) : fnode := FNode (fn_ns nd) (fn_hb nd) (fn_heard nd) (f (fn_acks nd)).
Definition on_fnode (n : string) (f : fnode → fnode) (s : fcluster) : fcluster := FCl (alter f n (fc_nodes s)) (fc_net s) (fc_step s).
Definition fsend (l : list (string * fmsg)) (s : fcluster) : fcluster := FCl (fc_nodes s) (fc_net s ++ l) (fc_step s).
(** DoPublish: one copy for every other server. *)
Definition fpublish (n : string) (pub echo : bool) (m : fmsg) (s : fcluster) : fcluster :=
  fsend (if pub then (λ d, (d, m)) <$> elements (if echo then dom (fc_nodes s) else dom (fc_nodes s) ∖ {[n]}) else []) s.

(** OnServerSideEmit, namespace.go:488-502: the event and its arguments, if any listener can be called. *)
Definition server_side_event (packet : list value) : option (string * list value) :=
  match packet with VStr ev :: args => Some (ev, args) | _ => None end.

Section cluster.
  (** HeartbeatTimeout(). *)
  Context (timeout : Z).

  (** What the handler [e] of [ClusterReq.v] hands to DoPublish. *)
  Definition published (self : string) (e : hev) (hb : hstate) : list cpublished :=
    drop (length (bs_pub (hb_base hb))) (bs_pub (hb_base (hstep self timeout hb e))).
  Definition is_request (p : cpublished) : bool := match p with PFetch _ | PEmit _ => true | _ => false end.

  (** FetchSockets, with-heartbeat.go:220-281. *)
  Definition do_fetch (n : string) (cb : nat) (rid : string) (opts : option bopts) (pub echo : bool) (e1 e2 : order) (os : orders) (s : fcluster) : fcluster :=
    match fc_nodes s !! n with
    | None => s
    | Some nd =>
        let e := HFetch (is_local opts) cb rid (local_details <$> fetch_sockets os opts (fn_ns nd)) in
        let asks := existsb is_request (published n e (fn_hb nd)) in
        fpublish n (asks && pub) echo (QFetch n rid (encode_options e1 e2 opts)) (on_fnode n (f_hb (λ hb, hstep n timeout hb e)) s)
    end.
  (** ServerSideEmit, namespace.go:460-466, with-heartbeat.go:153-218. *)
  Definition do_emit (n : string) (ack : option nat) (rid ev : string) (args : list value) (pub echo : bool) (s : fcluster) : fcluster :=
    match fc_nodes s !! n with
    | None => s
    | Some nd =>
        match ack with
        | None => fpublish n pub echo (QEmit n None (VStr ev :: args) (fc_step s)) s
        | Some cb =>
            let e := HEmit cb rid in
            let asks := existsb is_request (published n e (fn_hb nd)) in
            fpublish n (asks && pub) echo (QEmit n (Some rid) (VStr ev :: args) (fc_step s)) (on_fnode n (f_hb (λ hb, hstep n timeout hb e)) s)
        end
    end.
  (** OnMessage and OnResponse of server [d]; the heartbeat adapter notes the sender first. *)
  Definition freceive (d : string) (m : fmsg) (t : Z) (o : order) (os : orders) (s : fcluster) : fcluster :=
    match fc_nodes s !! d with
    | None => s
    | Some nd =>
        match m with
        | QResponse uid r => on_fnode d (f_hb (λ hb, hstep d timeout hb (HResponse uid r))) s
        | QFetch uid rid po =>
            let s := on_fnode d (f_hb (λ hb, hstep d timeout hb (HMessage t o uid MOperation))) s in
            if decide (uid = d) then s
            else fsend [(uid, QResponse d (RSockets rid (remote_details (fn_ns nd) <$> fetch_sockets os (Some (decode_options (Some po))) (fn_ns nd))))] s
        | QEmit uid rid packet tag =>
            let s := on_fnode d (f_hb (λ hb, hstep d timeout hb (HMessage t o uid MOperation))) s in
            if decide (uid = d) then s
            else match server_side_event packet with
                 | None => s
                 | Some ev => on_fnode d (λ nd, FNode (fn_ns nd) (fn_hb nd) (fn_heard nd ++ [(tag, ev)])
                                (match rid with Some rid => <[(uid, rid) := false]> (fn_acks nd) | None => fn_acks nd end)) s
                 end
        end
    end.
  (** The callback given to listeners, cluster-adapter.go:195-208; sync.Once: C12. *)
  Definition do_answer (n u rid : string) (args : list value) (s : fcluster) : fcluster :=
    match fc_nodes s !! n with
    | Some nd =>
        match fn_acks nd !! (u, rid) with
        | Some false => fsend [(u, QResponse n (REmitted rid args))] (on_fnode n (f_acks <[(u, rid) := true]>) s)
        | _ => s
        end
    | None => s
    end.

  Definition fstep_body (op : fop) (s : fcluster) : fcluster :=
    match op with
    | FFetch n cb rid opts pub echo e1 e2 os => do_fetch n cb rid opts pub echo e1 e2 os s
    | FEmit n ack rid ev args pub echo => do_emit n ack rid ev args pub echo s
    | FDeliver i t o os =>
        match fc_net s !! i with
        | Some (d, m) => freceive d m t o os (FCl (fc_nodes s) (delete i (fc_net s)) (fc_step s))
        | None => s
        end
    | FAnswer n u rid args => do_answer n u rid args s
    | FTimer n rid => on_fnode n (f_hb (λ hb, hstep n timeout hb (HTimer rid))) s
    | FMessage n t o u m => on_fnode n (f_hb (λ hb, hstep n timeout hb (HMessage t o u m))) s
    | FCheck n t on o => on_fnode n (f_hb (λ hb, hstep n timeout hb (HCheck t on o))) s
    | FLocal n l => on_fnode n (f_ns (local_op l)) s
    end.
  Definition fstep (s : fcluster) (op : fop) : fcluster :=
    let s' := fstep_body op s in FCl (fc_nodes s') (fc_net s') (S (fc_step s)).
  Definition empty_fnode : fnode := FNode (NSpace empty_registry ∅ [] []) hinit [] ∅.
  Definition finit (uids : gset string) : fcluster := FCl (gset_to_gmap empty_fnode uids) [] 0.
  Definition frun (uids : gset string) (h : list fop) : fcluster := foldl fstep (finit uids) h.
End cluster.
