(** Interleaving model of the reception of events by one socket.  Source: socket/client.go:199-221
    (ondecoded starts a goroutine per packet), socket/socket.go:534-564 (_onpacket, onevent), 753-768 (dispatch
    starts another goroutine when the middlewares are done).
    The middlewares are reduced to their verdict, called once (see Middleware.v for their behaviour); the two
    goroutines of a packet are one thread here, as the first has nothing left to do when it starts the second. *)
From Verif Require Import Base GoTypes.

(** An EVENT packet, and what its middlewares will answer. *)
Record dpacket := DPacket { dp_data : list value; dp_id : bool; dp_verdict : option string }.
Inductive dlog :=
  | LAny (k : nat) (args : list value)                       (* catch-all listeners: socket.go:560-562 *)
  | LHandler (k : nat) (ev : string) (args : list value)     (* EmitUntyped: 762 *)
  | LError (k : nat) (err : string)                          (* _onerror: 759 *)
  | LIgnored (k : nat)                                       (* 764 *)
  | LPanic (k : nat).                                        (* event[0] is not a string: 762 *)
Inductive dpc := DAny | DRun | DFail (err : string) | DCheck | DEmit | DDone.
#[global] Instance dpc_eq_dec : EqDecision dpc.
Proof. solve_decision. Defined.
(** [ds_reg]: the client has the socket in nsps; [ds_conn]: Connected(). Packet [k] is handled by thread [k]. *)
Record dstate := DState { ds_reg : bool; ds_conn : bool; ds_thr : list (dpacket * dpc); ds_log : list dlog }.
Definition dstate0 : dstate := DState true true [] [].

(** The arguments: the payload, with the acknowledgement function if there is an id: socket.go:554-559. *)
Definition dargs (k : nat) (x : dpacket) : list value := dp_data x ++ (if dp_id x then [VAck k] else []).
Definition dstep1 (s : dstate) (k : nat) (x : dpacket) (p : dpc) : dpc * list dlog :=
  match p with
  | DAny => (DRun, [LAny k (dargs k x)])
  | DRun => (match dp_verdict x with Some e => DFail e | None => DCheck end, [])
  | DFail e => (DDone, [LError k e])
  | DCheck => if ds_conn s then (DEmit, []) else (DDone, [LIgnored k])
  | DEmit => (DDone, [match dargs k x with VStr ev :: args => LHandler k ev args | _ => LPanic k end])
  | DDone => (DDone, [])
  end.
Inductive dlabel :=
  | DRecv (x : dpacket)      (* a packet is decoded: client.go:212-216; dropped if the socket is not registered *)
  | DStep (k : nat)          (* goroutine k runs *)
  | DUnreg                   (* the closing socket leaves nsps: client.go:143-150 *)
  | DDisc.                   (* connected.Store(false): socket.go:636 *)
Definition dstep (s : dstate) (l : dlabel) : dstate :=
  match l with
  | DRecv x => if ds_reg s then DState (ds_reg s) (ds_conn s) (ds_thr s ++ [(x, DAny)]) (ds_log s) else s
  | DStep k =>
      match ds_thr s !! k with
      | Some (x, p) => let r := dstep1 s k x p in DState (ds_reg s) (ds_conn s) (<[k := (x, r.1)]> (ds_thr s)) (ds_log s ++ r.2)
      | None => s
      end
  | DUnreg => DState false (ds_conn s) (ds_thr s) (ds_log s)
  | DDisc => DState (ds_reg s) false (ds_thr s) (ds_log s)
  end.
Definition drun (ls : list dlabel) : dstate := foldl dstep dstate0 ls.
