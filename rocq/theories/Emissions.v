(** Emissions of several goroutines to several connections, at the granularity of the operations on the connections.
    A goroutine performs emissions one after another.  An emission writes one packet to one connection
    (Socket.packet, socket/socket.go:453-459, through Client._packet) or, a broadcast, the same packet to the connections
    that adapter.apply visits, one after another (socket/adapter.go:145-165, 269-310, directly through WriteToEngine).
    Source of the steps: socket/client.go:162-187, with the mutex [mu] of the connection.
    Simplified: the list of connections a broadcast visits is given (which sockets they belong to when other goroutines
    move sockets meanwhile is C57); a packet is the list of its encoded frames; [conn.Write] appends to the buffer of the
    connection and calls nothing back. *)
From Verif Require Import Base.

Record emission := Emission {
  em_via : bool;               (* through Client._packet *)
  em_vol : bool;               (* the volatile flag *)
  em_frames : list string;
  em_conns : list nat          (* the connections, in the order of the visit *)
}.
(** One write: the emission it belongs to (its number in the goroutine) and the connection. *)
Record ewrite := EWrite { ew_num : nat; ew_em : emission; ew_conn : nat }.
Definition writes (es : list emission) : list ewrite :=
  concat (imap (λ n e, EWrite n e <$> em_conns e) es).

Inductive eres := EIgnored | EDiscarded | EWritten.
Inductive epc :=
  | EEnter                     (* client.go:163: conn.ReadyState(), if through _packet *)
  | ELock                      (* client.go:176 *)
  | ECheck                     (* client.go:179 *)
  | EFrames (n : nat)          (* client.go:184-186: [n] frames are written *)
  | EUnlock (r : eres).        (* client.go:177 *)
(** A goroutine: its writes, the results of those that returned, where it is in the next one. *)
Record ethread := EThread { et_writes : list ewrite; et_res : list eres; et_pc : epc }.
Record econn := EConn {
  ec_open : bool; ec_writable : bool;
  ec_lock : option nat;
  ec_log : list (nat * nat * string)   (* goroutine, number of its write, frame *)
}.
Record est := ESt { es_conn : nat → econn; es_thr : list ethread }.

Definition e_conn (c : nat) (x : econn) (s : est) : est := ESt (λ d, if decide (d = c) then x else es_conn s d) (es_thr s).
Definition e_goto (t : nat) (x : ethread) (pc : epc) (s : est) : est := ESt (es_conn s) (<[t := EThread (et_writes x) (et_res x) pc]> (es_thr s)).
Definition e_next (t : nat) (x : ethread) (r : eres) (s : est) : est := ESt (es_conn s) (<[t := EThread (et_writes x) (et_res x ++ [r]) EEnter]> (es_thr s)).
Definition e_lock (l : option nat) (x : econn) : econn := EConn (ec_open x) (ec_writable x) l (ec_log x).

Definition e_thread (t : nat) (x : ethread) (w : ewrite) (s : est) : est :=
  let c := ew_conn w in let e := ew_em w in let y := es_conn s c in
  match et_pc x with
  | EEnter => if em_via e && negb (ec_open y) then e_next t x EIgnored s else e_goto t x ELock s
  | ELock => match ec_lock y with None => e_goto t x ECheck (e_conn c (e_lock (Some t) y) s) | Some _ => s end
  | ECheck => e_goto t x (if em_vol e && negb (ec_writable y) then EUnlock EDiscarded else EFrames 0) s
  | EFrames n => match em_frames e !! n with
                 | Some f => e_goto t x (EFrames (S n)) (e_conn c (EConn (ec_open y) (ec_writable y) (ec_lock y) (ec_log y ++ [(t, length (et_res x), f)])) s)
                 | None => e_goto t x (EUnlock EWritten) s
                 end
  | EUnlock r => e_next t x r (e_conn c (e_lock None y) s)
  end.
(** [inl t]: goroutine [t] makes a step (none if it is finished or waits for the mutex); [inr]: the transport of a
    connection changes. *)
Definition elabel : Type := nat + nat * bool * bool.
Definition e_step (s : est) (l : elabel) : est :=
  match l with
  | inl t => match es_thr s !! t with
             | Some x => match et_writes x !! length (et_res x) with Some w => e_thread t x w s | None => s end
             | None => s
             end
  | inr (c, o, w) => let y := es_conn s c in e_conn c (EConn o w (ec_lock y) (ec_log y)) s
  end.
Definition e_start (ps : list (list emission)) : est :=
  ESt (λ _, EConn true true None []) ((λ es, EThread (writes es) [] EEnter) <$> ps).
Definition e_run (ps : list (list emission)) (ls : list elabel) : est := foldl e_step (e_start ps) ls.
