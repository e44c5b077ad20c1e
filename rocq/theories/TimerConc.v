(** Interleaving model of the connect timer of one connection: the timer, admissions to namespaces, departures and the close of the transport on
    several goroutines.
    Source: socket/client.go:72-86, 120-130, 142-159, 233-260, socket/namespace.go:276-301, 348-364, socket/socket.go:509-531.
    Granularity: one step per operation on the timer, on the pointer connectTimeout, on client.nsps or on the connection, per packet written and per
    event emitted.
    Simplifications: the tables other than client.nsps and the closing of the sockets of a closed connection are in LifeConc.v; ids are not reused. *)
From Verif Require Import Base.

(** [t_open]: conn.ReadyState() == "open"; [t_nsps]: the keys of client.nsps; [t_ptr]: connectTimeout is not nil; [t_set]: SetTimeout was called;
    [t_live]: ClearTimeout was not. *)
Record tstate := TState { t_open : bool; t_nsps : gset string; t_ptr : bool; t_set : bool; t_live : bool }.
Inductive tcall :=
  | TSetup               (* the end of Client.setup, client.go:78: the listeners of the connection are already set *)
  | TFire                (* the function of the timer, client.go:79-84 *)
  | TAdmit (n : string)  (* the goroutine of Add when the middlewares of a socket have accepted, namespace.go:276-301 *)
  | TGo (n : string)     (* client._remove for the socket in n, client.go:145-147 *)
  | TDown.               (* the transport closes: client.onclose *)
Inductive tpc :=
  | XStart
  | XStore               (* connectTimeout.Store, client.go:78 *)
  | XLen                 (* nsps.Len() == 0, client.go:79 *)
  | XReady | XHang       (* close, client.go:154, 156 *)
  | XLoad | XClear | XNil   (* client.go:125-128, 255-258 *)
  | XWrite               (* the CONNECT packet, socket.go:515-530 *)
  | XNsps                (* nsps.Store, client.go:124 *)
  | XSay                 (* connect and connection, namespace.go:362-363 *)
  | XEnd.
(** What the client and the application see. *)
Inductive tev := VConnect (n : string) | VAnnounced (n : string) | VHang.

Definition tstep1 (t : tcall) (p : tpc) (s : tstate) : tpc * tstate * list tev :=
  let next := match t with TAdmit _ => XSay | _ => XEnd end in
  match p with
  | XStart =>
      match t with
      | TSetup => (XStore, TState (t_open s) (t_nsps s) (t_ptr s) true (t_live s), [])
      | TFire => (if t_set s then if t_live s then XLen else XEnd else XStart, s, [])
      | TAdmit _ => (if t_open s then XWrite else XEnd, s, [])
      | TGo n => (XEnd, TState (t_open s) (t_nsps s ∖ {[n]}) (t_ptr s) (t_set s) (t_live s), [])
      | TDown => (XLoad, TState false (t_nsps s) (t_ptr s) (t_set s) (t_live s), [])
      end
  | XStore => (XEnd, TState (t_open s) (t_nsps s) true (t_set s) (t_live s), [])
  | XLen => (if decide (t_nsps s = ∅) then XReady else XEnd, s, [])
  | XReady => (if t_open s then XHang else XEnd, s, [])
  | XHang => (XLoad, TState false (t_nsps s) (t_ptr s) (t_set s) (t_live s), [VHang])
  | XLoad => (if t_ptr s then XClear else next, s, [])
  | XClear => (XNil, TState (t_open s) (t_nsps s) (t_ptr s) (t_set s) false, [])
  | XNil => (next, TState (t_open s) (t_nsps s) false (t_set s) (t_live s), [])
  | XWrite => (XNsps, s, match t with TAdmit n => if t_open s then [VConnect n] else [] | _ => [] end)
  | XNsps => (XLoad, TState (t_open s) (t_nsps s ∪ match t with TAdmit n => {[n]} | _ => ∅ end) (t_ptr s) (t_set s) (t_live s), [])
  | XSay => (XEnd, s, match t with TAdmit n => [VAnnounced n] | _ => [] end)
  | XEnd => (XEnd, s, [])
  end.
Record tconf := TConf { t_state : tstate; t_threads : list (tcall * tpc); t_log : list tev }.
Definition tstep (c : tconf) (i : nat) : tconf :=
  match t_threads c !! i with
  | Some (t, p) => let r := tstep1 t p (t_state c) in TConf r.1.2 (<[i := (t, r.1.1)]> (t_threads c)) (t_log c ++ r.2)
  | None => c
  end.
(** A connection just opened. *)
Definition tinit (ts : list tcall) : tconf := TConf (TState true ∅ false false true) ((λ t, (t, XStart)) <$> ts) [].
Definition trun (ts : list tcall) (sched : list nat) : tconf := foldl tstep (tinit ts) sched.
