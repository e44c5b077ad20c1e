(** Model of writing packets to a connection, socket/client.go:162-187 (_packet, WriteToEngine),
    at the granularity of the individual operations on the connection.  Callers: Client._packet
    (socket.packet) and, directly to WriteToEngine, the adapters (socket/adapter.go:162, 196;
    session-aware-adapter through the same).  A packet is the list of its encoded frames
    (the parser is a dependency).  [conn.Write] appends to the connection's buffer. *)
From Verif Require Import Base.

Inductive wres := WIgnored | WDiscarded | WWritten.
Inductive wpc :=
  | WReady                          (* client.go:163: conn.ReadyState() *)
  | WLock                           (* client.go:176: mu.Lock *)
  | WCheck                          (* client.go:179: opts.Volatile && !Writable() *)
  | WWrite (fs : list string)       (* client.go:184-186: the frames still to write *)
  | WUnlock (r : wres)
  | WDone (r : wres).
Record wthread := WThread { wt_vol : bool; wt_frames : list string; wt_pc : wpc }.
Record wst := WSt {
  w_open : bool;                    (* ReadyState() == "open" *)
  w_writable : bool;                (* Transport().Writable() *)
  w_lock : option nat;
  w_thr : list wthread;
  w_log : list (nat * string)       (* frames handed to conn.Write, with the goroutine that wrote them *)
}.
Definition wst0 : wst := WSt true true None [] [].

Definition w_goto (t : nat) (x : wthread) (pc : wpc) (s : wst) : wst :=
  WSt (w_open s) (w_writable s) (w_lock s) (<[t := WThread (wt_vol x) (wt_frames x) pc]> (w_thr s)) (w_log s).
Definition w_set_lock (l : option nat) (s : wst) : wst := WSt (w_open s) (w_writable s) l (w_thr s) (w_log s).

Definition wstep_thr (t : nat) (x : wthread) (s : wst) : option wst :=
  match wt_pc x with
  | WReady => Some (w_goto t x (if w_open s then WLock else WDone WIgnored) s)
  | WLock => match w_lock s with None => Some (w_goto t x WCheck (w_set_lock (Some t) s)) | Some _ => None end
  | WCheck => Some (w_goto t x (if wt_vol x && negb (w_writable s) then WUnlock WDiscarded else WWrite (wt_frames x)) s)
  | WWrite [] => Some (w_goto t x (WUnlock WWritten) s)
  | WWrite (f :: fs) =>
      Some (w_goto t x (WWrite fs) (WSt (w_open s) (w_writable s) (w_lock s) (w_thr s) (w_log s ++ [(t, f)])))
  | WUnlock r => Some (w_goto t x (WDone r) (w_set_lock None s))
  | WDone _ => None
  end.

Inductive wlabel :=
  | WCallP (vol : bool) (fs : list string)   (* Client._packet *)
  | WCallE (vol : bool) (fs : list string)   (* Client.WriteToEngine *)
  | WEnv (open writable : bool)              (* the transport changes *)
  | WRun (t : nat).
Definition wstep (l : wlabel) (s : wst) : option wst :=
  match l with
  | WCallP vol fs => Some (WSt (w_open s) (w_writable s) (w_lock s) (w_thr s ++ [WThread vol fs WReady]) (w_log s))
  | WCallE vol fs => Some (WSt (w_open s) (w_writable s) (w_lock s) (w_thr s ++ [WThread vol fs WLock]) (w_log s))
  | WEnv o w => Some (WSt o w (w_lock s) (w_thr s) (w_log s))
  | WRun t => match w_thr s !! t with Some x => wstep_thr t x s | None => None end
  end.
Fixpoint wexec (ls : list wlabel) (s : wst) : option wst :=
  match ls with [] => Some s | l :: ls => match wstep l s with Some s' => wexec ls s' | None => None end end.
