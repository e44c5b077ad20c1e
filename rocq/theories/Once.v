(** Model of the acknowledgement function given to event handlers,
    socket/socket.go:553-564 (onevent creates one per event with an id) and 569-582 (ack),
    including the Go runtime's [sync.Once] at the granularity of its memory operations:
      Do(f):   if done.Load() == 0 { lock; if done.Load() == 0 { f(); done.Store(1) }; unlock }. *)
From Verif Require Import Base GoTypes.

(** A goroutine calling the acknowledgement function of event [e] with [args]. *)
Inductive opc := OFast | OLock | OCheck | OSend | OMark | OUnlock | ODone.
Record othread := OThread { ot_ev : nat; ot_args : list value; ot_pc : opc }.

(** One cell per event received with an id: the packet id, Once.done, the owner of Once.m. *)
Record ocell := OCell { oc_id : N; oc_done : bool; oc_lock : option nat }.
Record ost := OSt {
  o_cells : list ocell;
  o_thr : list othread;
  o_sent : list (nat * N * list value)   (* ACK packets handed to s.packet: event, Id, Data *)
}.
Definition ost0 : ost := OSt [] [] [].

Definition with_pc (x : othread) (pc : opc) : othread := OThread (ot_ev x) (ot_args x) pc.
Definition o_goto (t : nat) (x : othread) (pc : opc) (s : ost) : ost := OSt (o_cells s) (<[t := with_pc x pc]> (o_thr s)) (o_sent s).
Definition o_cell (e : nat) (c : ocell) (s : ost) : ost := OSt (<[e := c]> (o_cells s)) (o_thr s) (o_sent s).

(** One step of goroutine [t]; [None]: blocked, finished or no such cell. *)
Definition ostep_thr (t : nat) (x : othread) (s : ost) : option ost :=
  match o_cells s !! ot_ev x with
  | None => None
  | Some c =>
      match ot_pc x with
      | OFast => Some (o_goto t x (if oc_done c then ODone else OLock) s)
      | OLock =>
          match oc_lock c with
          | None => Some (o_goto t x OCheck (o_cell (ot_ev x) (OCell (oc_id c) (oc_done c) (Some t)) s))
          | Some _ => None
          end
      | OCheck => Some (o_goto t x (if oc_done c then OUnlock else OSend) s)
      | OSend => Some (o_goto t x OMark (OSt (o_cells s) (o_thr s) (o_sent s ++ [(ot_ev x, oc_id c, ot_args x)])))
      | OMark => Some (o_goto t x OUnlock (o_cell (ot_ev x) (OCell (oc_id c) true (oc_lock c)) s))
      | OUnlock => Some (o_goto t x ODone (o_cell (ot_ev x) (OCell (oc_id c) (oc_done c) None) s))
      | ODone => None
      end
  end.

Inductive olabel :=
  | OEvent (id : N)                        (* an EVENT packet with an id is received *)
  | OCall (e : nat) (args : list value)    (* a goroutine calls the function of the e-th such event *)
  | ORun (t : nat).
Definition ostep (l : olabel) (s : ost) : option ost :=
  match l with
  | OEvent id => Some (OSt (o_cells s ++ [OCell id false None]) (o_thr s) (o_sent s))
  | OCall e args =>
      if decide (e < length (o_cells s)) then Some (OSt (o_cells s) (o_thr s ++ [OThread e args OFast]) (o_sent s)) else None
  | ORun t => match o_thr s !! t with Some x => ostep_thr t x s | None => None end
  end.
Fixpoint oexec (ls : list olabel) (s : ost) : option ost :=
  match ls with [] => Some s | l :: ls => match ostep l s with Some s' => oexec ls s' | None => None end end.

(** The ids of the events of a schedule, in order. *)
Definition oevents (ls : list olabel) : list N := omap (λ l, match l with OEvent id => Some id | _ => None end) ls.
(** The ACK packets sent for event [e]. *)
Definition sent_for (e : nat) (s : ost) : list (nat * N * list value) := filter (λ p, p.1.1 = e) (o_sent s).
