(** Model of the membership of a whole cluster: several servers with the heartbeat adapter, the messages
    between them, the heartbeat timers and the clock.
    Source: adapter/cluster-adapter-with-heartbeat.go:64-150 (Construct, Init, scheduleHeartbeat, Close,
    OnMessage, Publish), adapter/cluster-adapter.go:541-556 (Publish, PublishAndReturnOffset).
    What a server does with a message or at a check is [ClusterReq.on_message] and [ClusterReq.check].
    Granularity: every handler is atomic; any order of handlers, deliveries and timer firings is a run.
    The transport (an external adapter) hands every message to every other server once, in any order.
    Simplification: requests are not followed here (they are in [ClusterReq.v]), only the messages. *)
From Verif Require Import Base GoTypes ClusterReq.

(** heartbeatTimer: nil; armed (with the time at which it is due); stopped by ClearTimeout. *)
Inductive htimer := TmNone | TmArmed (due : Z) | TmCleared.
(** One server. *)
Record mnode := MNode { mn_h : hstate; mn_timer : htimer; mn_closed : bool }.
(** A message on its way to [fl_to]; [fl_sent] is when it was published (ghost). *)
Record flight := Flight { fl_to : string; fl_from : string; fl_sent : Z; fl_msg : cmessage }.
Record mstate := MState { ms_now : Z; ms_nodes : gmap string mnode; ms_net : list flight }.

Section cluster.
  (** HeartbeatInterval(), HeartbeatTimeout() in milliseconds.  [revive]: does Refresh() re-arm a timer
      that ClearTimeout stopped?  (The timer is in an external package; both answers are covered.) *)
  Context (interval timeout : Z) (revive : bool).

  (** scheduleHeartbeat, with-heartbeat.go:93-103: Refresh or SetTimeout. *)
  Definition sched (now : Z) (t : htimer) : htimer :=
    match t with TmCleared => if revive then TmArmed (now + interval) else TmCleared | _ => TmArmed (now + interval) end.
  Definition on_node (u : string) (f : mnode → mnode) (s : mstate) : mstate := MState (ms_now s) (alter f u (ms_nodes s)) (ms_net s).
  (** Publish of clusterAdapter, cluster-adapter.go:541-556: one message for every other server. *)
  Definition base_publish (u : string) (m : cmessage) (s : mstate) : mstate :=
    MState (ms_now s) (ms_nodes s)
      (ms_net s ++ ((λ d, Flight d u (ms_now s) m) <$> elements (dom (ms_nodes s) ∖ {[u]}))).
  (** Publish, with-heartbeat.go:147-151. *)
  Definition publish (u : string) (m : cmessage) (s : mstate) : mstate :=
    base_publish u m (on_node u (λ n, MNode (mn_h n) (sched (ms_now s) (mn_timer n)) (mn_closed n)) s).
  (** Close, with-heartbeat.go:105-111. *)
  Definition close_node (u : string) (s : mstate) : mstate :=
    on_node u (λ n, MNode (mn_h n) TmCleared true) (publish u MClose s).
  (** OnMessage of server [fl_to], with-heartbeat.go:113-141. *)
  Definition receive (o : order) (f : flight) (s : mstate) : mstate :=
    let s' := on_node (fl_to f) (λ n, MNode (on_message (fl_to f) (ms_now s) o (fl_from f) (fl_msg f) (mn_h n)) (mn_timer n) (mn_closed n)) s in
    match fl_msg f with
    | MInitial => if decide (fl_from f = fl_to f) then s' else publish (fl_to f) MHeartbeat s'
    | _ => s'
    end.

  Inductive mev :=
    | EJoin (u : string)                        (* Construct(), with-heartbeat.go:64-85: it publishes nothing *)
    | EInit (u : string)                        (* Init(), with-heartbeat.go:87-91 *)
    | ERequest (u : string)                     (* FetchSockets or ServerSideEmit, with-heartbeat.go:153-281: through Publish *)
    | EBase (u : string)                        (* an operation of the embedded adapter (a broadcast, a join, a response...) *)
    | EFire (u : string)                        (* the heartbeat timer fires *)
    | EClose (u : string)
    | EDeliver (i : nat) (o : order)            (* the i-th message on its way arrives *)
    | ECheck (u : string) (on o : order)        (* the cleanup timer, with-heartbeat.go:75-84 *)
    | ETick (d : Z).                            (* time passes *)
  (** [None]: the event cannot happen in this state. *)
  Definition mstep (s : mstate) (e : mev) : option mstate :=
    match e with
    | EJoin u => match ms_nodes s !! u with
        | None => Some (MState (ms_now s) (<[u := MNode hinit TmNone false]> (ms_nodes s)) (ms_net s)) | Some _ => None end
    | EInit u => _ ← ms_nodes s !! u; Some (publish u MInitial s)
    | ERequest u => _ ← ms_nodes s !! u; Some (publish u MOperation s)
    | EBase u => _ ← ms_nodes s !! u; Some (base_publish u MOperation s)
    | EFire u => n ← ms_nodes s !! u;
        match mn_timer n with
        | TmArmed due => if decide (due ≤ ms_now s)%Z then Some (publish u MHeartbeat s) else None
        | _ => None
        end
    | EClose u => _ ← ms_nodes s !! u; Some (close_node u s)
    | EDeliver i o => f ← ms_net s !! i; Some (receive o f (MState (ms_now s) (ms_nodes s) (delete i (ms_net s))))
    | ECheck u on o => n ← ms_nodes s !! u;
        if mn_closed n then None
        else Some (on_node u (λ n, MNode (check timeout (ms_now s) on o (mn_h n)) (mn_timer n) (mn_closed n)) s)
    | ETick d => if decide (0 ≤ d)%Z then Some (MState (ms_now s + d) (ms_nodes s) (ms_net s)) else None
    end.
  Fixpoint mrun (s : mstate) (h : list mev) : option mstate :=
    match h with [] => Some s | e :: h => s ← mstep s e; mrun s h end.
End cluster.

(** Before any adapter is constructed. *)
Definition nobody (t : Z) : mstate := MState t ∅ [].
