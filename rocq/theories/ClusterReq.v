(** Model of the cluster adapter of one server: membership by heartbeats, and requests to the other
    servers.  Source: adapter/cluster-adapter-with-heartbeat.go:64-340, adapter/cluster-adapter.go:76-83,
    198-290, 331-363, 422-537.
    Granularity: every handler (a message, a response, a timer, the periodic check, a call) is atomic;
    overlapping handlers are in [ClusterReqConc.v].
    Simplifications: sockets described in a response are opaque values; a response has the kind of the
    request it answers (the code does not check it); the messages that carry operations (broadcasts,
    joins...) are in [Cluster.v] and only count as a sign of life here. *)
From Verif Require Import Base GoTypes.

(** A ClusterResponse without its sender, cluster-adapter-type.go. *)
Inductive cresp :=
  | RClientCount (rid : string) (n : nat)              (* BROADCAST_CLIENT_COUNT *)
  | RAck (rid : string) (args : list value)            (* BROADCAST_ACK *)
  | RSockets (rid : string) (l : list value)           (* FETCH_SOCKETS_RESPONSE *)
  | REmitted (rid : string) (args : list value).       (* SERVER_SIDE_EMIT_RESPONSE *)
Inductive cmessage :=
  | MInitial | MHeartbeat | MClose                     (* INITIAL_HEARTBEAT, HEARTBEAT, ADAPTER_CLOSE *)
  | MResponse (r : cresp)                              (* a response that the transport hands to OnMessage *)
  | MOperation.                                        (* BROADCAST, SOCKETS_JOIN, FETCH_SOCKETS, ... *)

(** What a callback is called with.  [cb] numbers identify the callbacks (ghost). *)
Inductive ccall :=
  | CalledOk (l : list value)             (* callback(l, nil) *)
  | CalledErr (l : list value)            (* callback(l, error) *)
  | CalledCount (n : nat)                 (* clientCountCallback *)
  | CalledAck (l : list value).           (* ack of a broadcast *)
(** What is handed to DoPublish. *)
Inductive cpublished := PInitial | PHeartbeat | PClose | PFetch (rid : string) | PEmit (rid : option string).

(** ClusterRequest and ClusterAckRequest, cluster-adapter-type.go. *)
Record breq := BReq { bq_cb : nat; bq_expected : nat; bq_current : nat; bq_resp : list value }.
(** The part of clusterAdapter used here: requests, ackRequests; [calls] logs the callbacks called. *)
Record bstate := BState { bs_reqs : gmap string breq; bs_acks : gmap string nat; bs_calls : list (nat * ccall); bs_pub : list cpublished }.
Definition bcall (cb : nat) (c : ccall) (s : bstate) : bstate := BState (bs_reqs s) (bs_acks s) (bs_calls s ++ [(cb, c)]) (bs_pub s).
Definition bpub (p : cpublished) (s : bstate) : bstate := BState (bs_reqs s) (bs_acks s) (bs_calls s) (bs_pub s ++ [p]).
Definition bset (m : gmap string breq) (s : bstate) : bstate := BState m (bs_acks s) (bs_calls s) (bs_pub s).
Definition bset_acks (m : gmap string nat) (s : bstate) : bstate := BState (bs_reqs s) m (bs_calls s) (bs_pub s).

(** What a response adds to the Responses of its request. *)
Definition resp_rid (r : cresp) : string := match r with RClientCount i _ | RAck i _ | RSockets i _ | REmitted i _ => i end.
Definition resp_values (r : cresp) : list value :=
  match r with RSockets _ l => l | REmitted _ args => [VArr args] | _ => [] end.

(** OnResponse of clusterAdapter, cluster-adapter.go:226-290. *)
Definition base_on_response (r : cresp) (s : bstate) : bstate :=
  match r with
  | RClientCount rid n => match bs_acks s !! rid with Some cb => bcall cb (CalledCount n) s | None => s end
  | RAck rid args => match bs_acks s !! rid with Some cb => bcall cb (CalledAck args) s | None => s end
  | RSockets rid _ | REmitted rid _ =>
      match bs_reqs s !! rid with
      | Some q =>
          let q := BReq (bq_cb q) (bq_expected q) (S (bq_current q)) (bq_resp q ++ resp_values r) in
          if decide (bq_current q = bq_expected q)
          then bset (delete rid (bs_reqs s)) (bcall (bq_cb q) (CalledOk (bq_resp q)) s)
          else bset (<[rid := q]> (bs_reqs s)) s
      | None => s
      end
  end.
(** OnMessage of clusterAdapter for the messages considered here, cluster-adapter.go:76-83, 213-220. *)
Definition base_on_message (self uid : string) (m : cmessage) (s : bstate) : bstate :=
  if decide (uid = self) then s
  else match m with MResponse r => base_on_response r s | _ => s end.
(** ServerCount as seen by the methods of clusterAdapter: that of the in-memory adapter it embeds,
    socket/adapter.go:88-90 (c.ServerCount() is not dispatched to an extending adapter). *)
Definition base_server_count : nat := 1.
(** FetchSockets of clusterAdapter, cluster-adapter.go:422-472.  [count]: what ServerCount() returns. *)
Definition base_fetch (count : nat) (loc : bool) (cb : nat) (rid : string) (local : list value) (s : bstate) : bstate :=
  let expected := count - 1 in
  if loc || bool_decide (expected = 0) then bcall cb (CalledOk local) s
  else bpub (PFetch rid) (bset (<[rid := BReq cb expected 0 local]> (bs_reqs s)) s).
(** The timer of a request, cluster-adapter.go:440-445, 503-511. *)
Definition base_timer (fetch : bool) (rid : string) (s : bstate) : bstate :=
  match bs_reqs s !! rid with
  | Some q => bset (delete rid (bs_reqs s)) (bcall (bq_cb q) (CalledErr (if fetch then [] else bq_resp q)) s)
  | None => s
  end.

(** CustomClusterRequest; [cq_fetch]: for FetchSockets (else ServerSideEmit). *)
Record creq := CReq { cq_cb : nat; cq_fetch : bool; cq_missing : gset string; cq_resp : list value }.
(** clusterAdapterWithHeartbeat. *)
Record hstate := HState { hb_base : bstate; hb_nodes : gmap string Z; hb_custom : gmap string creq }.
Definition hcall (cb : nat) (c : ccall) (s : hstate) : hstate := HState (bcall cb c (hb_base s)) (hb_nodes s) (hb_custom s).
Definition hpub (p : cpublished) (s : hstate) : hstate := HState (bpub p (hb_base s)) (hb_nodes s) (hb_custom s).
Definition hset (m : gmap string creq) (s : hstate) : hstate := HState (hb_base s) (hb_nodes s) m.
Definition hset_nodes (m : gmap string Z) (s : hstate) : hstate := HState (hb_base s) m (hb_custom s).

(** EMITTER_UID, cluster-adapter-type.go. *)
Definition emitter_uid : string := "emitter".

Section heartbeat.
  (** Uid() and HeartbeatTimeout(). *)
  Context (self : string) (timeout : Z).

  (** Resolve when nothing is missing, with-heartbeat.go:297-301, 313-317, 331-335. *)
  Definition settle (rid : string) (q : creq) (s : hstate) : hstate :=
    if decide (cq_missing q = ∅) then hset (delete rid (hb_custom s)) (hcall (cq_cb q) (CalledOk (cq_resp q)) s)
    else hset (<[rid := q]> (hb_custom s)) s.
  (** OnResponse, with-heartbeat.go:283-326. *)
  Definition on_response (uid : string) (r : cresp) (s : hstate) : hstate :=
    match r with
    | RSockets rid _ | REmitted rid _ =>
        match hb_custom s !! rid with
        | Some q => settle rid (CReq (cq_cb q) (cq_fetch q) (cq_missing q ∖ {[uid]}) (cq_resp q ++ resp_values r)) s
        | None => s
        end
    | _ => HState (base_on_response r (hb_base s)) (hb_nodes s) (hb_custom s)
    end.
  (** removeNode, with-heartbeat.go:328-340; [o] orders the Range over customRequests. *)
  Definition remove_one (uid : string) (s : hstate) (rid : string) : hstate :=
    match hb_custom s !! rid with
    | Some q => settle rid (CReq (cq_cb q) (cq_fetch q) (cq_missing q ∖ {[uid]}) (cq_resp q)) s
    | None => s
    end.
  Definition remove_node (o : order) (uid : string) (s : hstate) : hstate :=
    let s := foldl (remove_one uid) s (o (dom (hb_custom s))) in
    hset_nodes (delete uid (hb_nodes s)) s.
  (** OnMessage, with-heartbeat.go:113-141. *)
  Definition on_message (now : Z) (o : order) (uid : string) (m : cmessage) (s : hstate) : hstate :=
    if decide (uid = self) then s
    else
      let s := if decide (uid = emitter_uid) then s else hset_nodes (<[uid := now]> (hb_nodes s)) s in
      match m with
      | MInitial => hpub PHeartbeat s
      | MHeartbeat => s
      | MClose => remove_node o uid s
      | _ => HState (base_on_message self uid m (hb_base s)) (hb_nodes s) (hb_custom s)
      end.
  (** The periodic check, with-heartbeat.go:75-84; [on] orders the Range over nodesMap. *)
  Definition check_one (now : Z) (o : order) (s : hstate) (uid : string) : hstate :=
    match hb_nodes s !! uid with
    | Some seen => if decide (timeout < now - seen)%Z then remove_node o uid s else s
    | None => s
    end.
  Definition check (now : Z) (on o : order) (s : hstate) : hstate :=
    foldl (check_one now o) s (on (dom (hb_nodes s))).
  (** ServerCount, with-heartbeat.go:143-145. *)
  Definition server_count (s : hstate) : nat := S (size (hb_nodes s)).
  (** FetchSockets, with-heartbeat.go:220-281; [loc]: the Local flag; [local]: the sockets of this server,
      given by the base adapter ([Adapter.fetch_sockets]). *)
  Definition fetch (loc : bool) (cb : nat) (rid : string) (local : list value) (s : hstate) : hstate :=
    let expected := server_count s - 1 in
    if loc || bool_decide (expected = 0) then hcall cb (CalledOk local) s
    else hpub (PFetch rid) (hset (<[rid := CReq cb true (dom (hb_nodes s)) local]> (hb_custom s)) s).
  (** ServerSideEmit with an acknowledgement, with-heartbeat.go:153-218. *)
  Definition server_emit (cb : nat) (rid : string) (s : hstate) : hstate :=
    if decide (size (hb_nodes s) = 0) then hcall cb (CalledOk []) s
    else hpub (PEmit (Some rid)) (hset (<[rid := CReq cb false (dom (hb_nodes s)) []]> (hb_custom s)) s).
  (** The timer of a request, with-heartbeat.go:248-253, 184-192. *)
  Definition req_timer (rid : string) (s : hstate) : hstate :=
    match hb_custom s !! rid with
    | Some q => hset (delete rid (hb_custom s)) (hcall (cq_cb q) (CalledErr (if cq_fetch q then [] else cq_resp q)) s)
    | None => s
    end.

  Inductive hev :=
    | HMessage (t : Z) (o : order) (uid : string) (m : cmessage)   (* OnMessage at time t *)
    | HResponse (uid : string) (r : cresp)                         (* OnResponse *)
    | HCheck (t : Z) (on o : order)                                (* the periodic check at time t *)
    | HFetch (loc : bool) (cb : nat) (rid : string) (local : list value)
    | HEmit (cb : nat) (rid : string)
    | HTimer (rid : string)                                        (* the timer of a request fires *)
    | HBroadcastAck (cb : nat) (rid : string)                      (* BroadcastWithAck, cluster-adapter.go:335-338 *)
    | HAckExpired (rid : string).                                  (* cluster-adapter.go:356-358 *)
  Definition hstep (s : hstate) (e : hev) : hstate :=
    match e with
    | HMessage t o uid m => on_message t o uid m s
    | HResponse uid r => on_response uid r s
    | HCheck t on o => check t on o s
    | HFetch loc cb rid local => fetch loc cb rid local s
    | HEmit cb rid => server_emit cb rid s
    | HTimer rid => req_timer rid s
    | HBroadcastAck cb rid => HState (bset_acks (<[rid := cb]> (bs_acks (hb_base s))) (hb_base s)) (hb_nodes s) (hb_custom s)
    | HAckExpired rid => HState (bset_acks (delete rid (bs_acks (hb_base s))) (hb_base s)) (hb_nodes s) (hb_custom s)
    end.
  Definition hinit : hstate := HState (BState ∅ ∅ [] []) ∅ ∅.
  Definition hrun (h : list hev) : hstate := foldl hstep hinit h.
End heartbeat.
