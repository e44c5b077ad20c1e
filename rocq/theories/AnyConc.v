(** The catch-all listeners of one socket when goroutines register and remove them while events are received (sent).
    Source: socket/socket.go:553-564 (onevent), 862-1006 (OnAny, PrependAny, OffAny, the outgoing variants, notifyOutgoingListeners).
    Granularity: an operation on the list is atomic (types.Slice holds a lock); All returns a copy; each call of a listener is a step.  What a listener
    does itself (remove itself, register others, emit) are other steps.
    Simplification: which goroutine makes a step is not recorded, only for which event it is made; the calls for one event come one after another. *)
From Verif Require Import Base GoTypes AnyListeners.

Inductive nlabel :=
  | NReg (o : aop)                  (* a registration or removal ([AEvent] is not one and does nothing) *)
  | NBegin (args : list value)      (* socket.go:560, 999: an event takes its copy of the list *)
  | NCall (n : nat).                (* socket.go:561, 1000-1004: event [n] calls its next listener *)
(** An event under way: its arguments, and the listeners still to be called. *)
Record note := Note { nt_args : list value; nt_left : list listener }.
Record nstate := NState { ns_list : list listener; ns_notes : list note; ns_log : list (nat * (listener * list value)) }.
Definition nstate0 : nstate := NState [] [] [].
Definition nregister (o : aop) (l : list listener) : list listener :=
  match o with AEvent _ => l | _ => as_listeners (astep (AState l []) o) end.
Definition nstep (s : nstate) (x : nlabel) : nstate :=
  match x with
  | NReg o => NState (nregister o (ns_list s)) (ns_notes s) (ns_log s)
  | NBegin args => NState (ns_list s) (ns_notes s ++ [Note args (ns_list s)]) (ns_log s)
  | NCall n => match ns_notes s !! n with
               | Some (Note args (l :: ls)) => NState (ns_list s) (<[n := Note args ls]> (ns_notes s)) (ns_log s ++ [(n, (l, args))])
               | _ => s
               end
  end.
Definition nrun (ls : list nlabel) : nstate := foldl nstep nstate0 ls.
