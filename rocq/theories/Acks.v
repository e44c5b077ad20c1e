(** Model of acknowledgements of single emissions, at the granularity of the
    individual shared-memory operations.  Sources: socket/socket.go:288-297
    (Emit), 346-361 (registerAckCallback), 585-597 (onack), socket/client.go:216
    (one goroutine per packet), socket/adapter.go:183-198 (BroadcastWithAck),
    socket/namespace.go:141-143 (Ids). *)
From Verif Require Import Base GoTypes.

(** A socket: its namespace and a number. *)
Notation skey := (nat * nat)%type (only parsing).

(** An emission that asked for an acknowledgement.  [em_socks]: the sockets whose
    table receives the callback (one for Socket.Emit, the selected ones for
    BroadcastWithAck); [em_timeout]: a Timeout flag was set (Socket.Emit only). *)
Record aemission := AEmission { em_nsp : nat; em_id : N; em_socks : list skey; em_timeout : bool }.

(** Goroutines, by what they do next.  [cb] is the index of the emission. *)
Inductive athread :=
  | TArm (cb : nat)                                        (* socket.go:352: utils.SetTimeout *)
  | TStore (cb : nat) (ss : list skey)                     (* socket.go:349, 357 / adapter.go:193: acks.Store, one socket at a time *)
  | TLoad (s : skey) (id : N) (args : list value)          (* socket.go:587: acks.Load *)
  | TClear (s : skey) (id : N) (args : list value) (cb : nat) (* socket.go:358: utils.ClearTimeout *)
  | TCall (s : skey) (id : N) (args : list value) (cb : nat)  (* socket.go:589, 359: the user's callback *)
  | TDel (s : skey) (id : N)                               (* socket.go:590: acks.Delete *)
  | TTimeDel (cb : nat)                                    (* socket.go:354: acks.Delete *)
  | TTimeCall (cb : nat).                                  (* socket.go:355: the user's callback with an error *)

(** A call of a user's callback: [Some args] with the reply, [None] with the timeout error. *)
Record acall := ACall { c_cb : nat; c_sock : skey; c_id : N; c_res : option (list value) }.

Record ast := ASt {
  a_ids : gmap nat N;                 (* _ids of each namespace *)
  a_ems : list aemission;             (* emissions so far *)
  a_acks : gmap (skey * N) nat;       (* the [acks] maps of all sockets: callback per packet id *)
  a_armed : gset nat;                 (* running timers, by emission *)
  a_thr : list (option athread);      (* goroutines; None when finished *)
  a_calls : list acall
}.
Definition ast0 : ast := ASt ∅ [] ∅ ∅ [] [].

(** uint64 arithmetic of [_ids.Add(1)]. *)
Definition u64 : N := (2 ^ 64)%N.
Definition next_id (s : ast) (n : nat) : N := ((default 0%N (a_ids s !! n) + 1) mod u64)%N.

Definition set_thr (t : nat) (x : option athread) (s : ast) : ast :=
  ASt (a_ids s) (a_ems s) (a_acks s) (a_armed s) (<[t := x]> (a_thr s)) (a_calls s).
Definition spawn (x : athread) (s : ast) : ast :=
  ASt (a_ids s) (a_ems s) (a_acks s) (a_armed s) (a_thr s ++ [Some x]) (a_calls s).
Definition store_ack (k : skey) (id : N) (cb : nat) (s : ast) : ast :=
  ASt (a_ids s) (a_ems s) (<[(k, id) := cb]> (a_acks s)) (a_armed s) (a_thr s) (a_calls s).
Definition del_ack (k : skey) (id : N) (s : ast) : ast :=
  ASt (a_ids s) (a_ems s) (delete (k, id) (a_acks s)) (a_armed s) (a_thr s) (a_calls s).
Definition set_armed (X : gset nat) (s : ast) : ast :=
  ASt (a_ids s) (a_ems s) (a_acks s) X (a_thr s) (a_calls s).
Definition log_call (c : acall) (s : ast) : ast :=
  ASt (a_ids s) (a_ems s) (a_acks s) (a_armed s) (a_thr s) (a_calls s ++ [c]).

(** Start of Socket.Emit with a callback: the id is taken (one atomic add), the
    rest is the goroutine's. *)
Definition start_emit (n : nat) (ss : list skey) (tmo : bool) (first : nat → athread) (s : ast) : ast :=
  let id := next_id s n in
  spawn (first (length (a_ems s)))
    (ASt (<[n := id]> (a_ids s)) (a_ems s ++ [AEmission n id ss tmo]) (a_acks s) (a_armed s) (a_thr s) (a_calls s)).

(** One step of goroutine [t]. *)
Definition step_thr (t : nat) (x : athread) (s : ast) : ast :=
  match x with
  | TArm cb =>
      match a_ems s !! cb with
      | Some em => set_thr t (Some (TStore cb (em_socks em))) (set_armed ({[cb]} ∪ a_armed s) s)
      | None => set_thr t None s
      end
  | TStore cb [] => set_thr t None s
  | TStore cb (k :: ss) =>
      match a_ems s !! cb with
      | Some em => set_thr t (match ss with [] => None | _ => Some (TStore cb ss) end) (store_ack k (em_id em) cb s)
      | None => set_thr t None s
      end
  | TLoad k id args =>
      match a_acks s !! (k, id) with
      | Some cb =>
          match a_ems s !! cb with
          | Some em => set_thr t (Some (if em_timeout em then TClear k id args cb else TCall k id args cb)) s
          | None => set_thr t None s
          end
      | None => set_thr t None s                      (* "bad ack" *)
      end
  | TClear k id args cb => set_thr t (Some (TCall k id args cb)) (set_armed (a_armed s ∖ {[cb]}) s)
  | TCall k id args cb => set_thr t (Some (TDel k id)) (log_call (ACall cb k id (Some args)) s)
  | TDel k id => set_thr t None (del_ack k id s)
  | TTimeDel cb =>
      match a_ems s !! cb with
      | Some em =>
          set_thr t (Some (TTimeCall cb)) (match em_socks em with k :: _ => del_ack k (em_id em) s | [] => s end)
      | None => set_thr t None s
      end
  | TTimeCall cb =>
      match a_ems s !! cb with
      | Some em =>
          match em_socks em with
          | k :: _ => set_thr t None (log_call (ACall cb k (em_id em) None) s)
          | [] => set_thr t None s
          end
      | None => set_thr t None s
      end
  end.

(** What can happen next. *)
Inductive alabel :=
  | LEmit (k : skey) (tmo : bool)              (* Socket.Emit with a callback is called *)
  | LBroadcast (n : nat) (ks : list nat)        (* BroadcastWithAck on namespace n selected its sockets ks *)
  | LRecv (k : skey) (oid : option N) (args : list value)  (* an ACK packet arrives: go socket._onpacket *)
  | LExpire (cb : nat)                         (* a running timer fires: its function runs in a new goroutine *)
  | LRun (t : nat).                            (* goroutine t makes a step *)

Definition astep (l : alabel) (s : ast) : option ast :=
  match l with
  | LEmit k tmo => Some (start_emit k.1 [k] tmo (λ cb, if tmo then TArm cb else TStore cb [k]) s)
  | LBroadcast n ks => Some (start_emit n (pair n <$> ks) false (λ cb, TStore cb (pair n <$> ks)) s)
  | LRecv k (Some id) args => Some (spawn (TLoad k id args) s)
  | LRecv k None args => Some s                 (* "bad ack nil" *)
  | LExpire cb => if decide (cb ∈ a_armed s) then Some (spawn (TTimeDel cb) (set_armed (a_armed s ∖ {[cb]}) s)) else None
  | LRun t => match a_thr s !! t with Some (Some x) => Some (step_thr t x s) | _ => None end
  end.
Fixpoint aexec (ls : list alabel) (s : ast) : option ast :=
  match ls with [] => Some s | l :: ls => match astep l s with Some s' => aexec ls s' | None => None end end.

(** Handlers that do not overlap: each event runs to completion before the next. *)
Inductive aevent :=
  | EvEmit (k : skey) (tmo : bool)
  | EvBroadcast (n : nat) (ks : list nat)
  | EvRecv (k : skey) (oid : option N) (args : list value)
  | EvExpire (cb : nat).
Definition ev_label (e : aevent) : alabel :=
  match e with
  | EvEmit k tmo => LEmit k tmo
  | EvBroadcast n ks => LBroadcast n ks
  | EvRecv k oid args => LRecv k oid args
  | EvExpire cb => LExpire cb
  end.
(** Run goroutine [t] to its end, at most [n] steps. *)
Fixpoint run_thr (n : nat) (t : nat) (s : ast) : ast :=
  match n with
  | O => s
  | S n => match a_thr s !! t with Some (Some x) => run_thr n t (step_thr t x s) | _ => s end
  end.
Definition ev_fuel (e : aevent) : nat := match e with EvBroadcast _ ks => S (length ks) | _ => 4 end.
(** An expiry of a timer that is not running does not happen. *)
Definition aserial1 (s : ast) (e : aevent) : ast :=
  match astep (ev_label e) s with
  | Some s' => run_thr (ev_fuel e) (length (a_thr s)) s'
  | None => s
  end.
Definition aserial (es : list aevent) (s : ast) : ast := foldl aserial1 s es.
