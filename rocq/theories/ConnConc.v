(** Interleaving model of one connection with any number of sockets: the calls of LifeConc.v on each of them, the close of the transport,
    Disconnect(true) and Server.Close, which go over the tables of sockets while these change.
    Source: socket/client.go:118-159, 233-247, socket/server.go:617-626, and those of LifeConc.v for what happens to one socket.
    Granularity: that of LifeConc.v; one step per key of a Range.  A Range of types.Map reaches every key that is in the table all the time, no key
    twice, and no key that is never there.
    Simplifications: the sockets of the connection are in different namespaces; Server.Close goes over all of them in one Range; ids are not reused. *)
From Verif Require Import Base LifeConc.

(** The connection is open; the sockets (those that are not in the map have just been made). [ls_open] of a stored socket is not used. *)
Record cstate := CState { cs_open : bool; cs_socks : gmap sid lstate }.
Definition newcomer : lstate := LState true false true ∅ false false false.
Definition sock (s : cstate) (x : sid) : lstate := set_open (cs_open s) (default newcomer (cs_socks s !! x)).
Definition put (x : sid) (v : lstate) (s : cstate) : cstate := CState (cs_open s) (<[x := v]> (cs_socks s)).
(** client.sockets.Clear(), client.go:138, 244; conn.Close. *)
Definition cclear (s : cstate) : cstate := CState (cs_open s) (set_csock false <$> cs_socks s).
Definition chang (s : cstate) : cstate := CState false (cs_socks s).

Inductive ccall :=
  | CConnect (x : sid) (refused : bool) | CPacket (x : sid) | CDisconnect (x : sid) | CJoin (x : sid) (rs : gset room) | CLeave (x : sid) (r : room)
  | CDisconnectAll (x : sid)        (* socket.Disconnect(true): client._disconnect *)
  | CTransport (r : string)         (* client.onclose *)
  | CShutdown.                      (* Server.Close *)
(** The calls on one socket. *)
Definition own_call (t : ccall) : option (sid * lcall) :=
  match t with
  | CConnect x b => Some (x, LcConnect x b) | CPacket x => Some (x, LcPacket) | CDisconnect x => Some (x, LcDisconnect)
  | CJoin x rs => Some (x, LcJoin rs) | CLeave x r => Some (x, LcLeave r)
  | _ => None
  end.
Definition loop_call (t : ccall) : lcall := match t with CTransport r => LcTransport r | CDisconnectAll _ => LcDisconnectAll | _ => LcShutdown end.

(** A Range under way: the keys that were in the table at some time, all the time, and those visited. *)
Record crange := CRange { cg_seen : gset sid; cg_stable : gset sid; cg_visited : gset sid }.
(** The loops: KAll of client._disconnect (client.go:134-137), KClear of client.onclose (client.go:240-243), KEnd of Server.Close (server.go:619-622). *)
Definition table (k : lcont) (s : cstate) : gset sid :=
  filter (λ x, match k with KEnd => ls_listed (sock s x) | _ => ls_csock (sock s x) end = true) (dom (cs_socks s)).
(** What the loop does with a socket begins here; it is over at [after k]. *)
Definition first (k : lcont) (t : lcall) : lpc :=
  match k with
  | KAll => QCheck1
  | KClear => QOpen (match t with LcTransport r => r | _ => "forced server close" end) KClear
  | KEnd => QOpen "server shutting down" KEnd
  end.
Definition over (k : lcont) (p : lpc) : bool := match k, p with KAll, QClear1 | KClear, QClear | KEnd, QDone => true | _, _ => false end.
Inductive cpc :=
  | MStart
  | MIn (p : lpc)                                          (* a call on one socket *)
  | MRange (k : lcont) (g : crange)                        (* between two keys *)
  | MAt (k : lcont) (g : crange) (x : sid) (p : lpc)       (* at socket x *)
  | MAfter (p : lpc)                                       (* after the loop *)
  | MNone                                                  (* Disconnect(true) found its socket disconnected, socket.go:669-671 *)
  | MDone.
Definition begin (k : lcont) (s : cstate) : cpc := MRange k (CRange (table k s) (table k s) ∅).
Definition tell (x : sid) (e : option lev) : list (sid * lev) := match e with Some e => [(x, e)] | None => [] end.
(** [l]: the key that a Range visits next, or its end. *)
Definition cstep1 (t : ccall) (l : option sid) (p : cpc) (s : cstate) : cpc * cstate * list (sid * lev) :=
  match p with
  | MStart =>
      match t with
      | CTransport _ => (begin KClear s, chang s, [])
      | CDisconnectAll x => (if ls_connected (sock s x) then begin KAll s else MNone, s, [])
      | CShutdown => (begin KEnd s, s, [])
      | _ => (MStart, s, [])
      end
  | MIn q =>
      match own_call t with
      | Some (x, u) => let r := lc_step1 u q (sock s x) in (MIn r.1.1, put x r.1.2 s, tell x r.2)
      | None => (p, s, [])
      end
  | MRange k g =>
      (match l with
       | Some x => if decide (x ∈ cg_seen g ∧ x ∉ cg_visited g) then MAt k (CRange (cg_seen g) (cg_stable g) ({[x]} ∪ cg_visited g)) x (first k (loop_call t)) else p
       | None => if decide (cg_stable g ⊆ cg_visited g) then match k with KEnd => MDone | _ => MAfter (after k) end else p
       end, s, [])
  | MAt k g x q =>
      let r := lc_step1 (loop_call t) q (sock s x) in (if over k r.1.1 then MRange k g else MAt k g x r.1.1, put x r.1.2 s, tell x r.2)
  | MAfter QClear1 => (MAfter QReady, cclear s, [])
  | MAfter QReady => (if cs_open s then MAfter QHang else MDone, s, [])
  | MAfter QHang => (begin KClear s, chang s, [])
  | MAfter QClear => (MDone, cclear s, [])
  | MAfter _ | MNone | MDone => (p, s, [])
  end.
(** What a Range sees of a change of the table. *)
Definition sees (s : cstate) (p : cpc) : cpc :=
  let see k g := CRange (cg_seen g ∪ table k s) (cg_stable g ∩ table k s) (cg_visited g) in
  match p with MRange k g => MRange k (see k g) | MAt k g x q => MAt k (see k g) x q | _ => p end.

Record cconf := CConf { cc_state : cstate; cc_calls : list (ccall * cpc); cc_log : list (nat * (sid * lev)) }.
Definition cstep (c : cconf) (il : nat * option sid) : cconf :=
  match cc_calls c !! il.1 with
  | Some (t, p) =>
      let r := cstep1 t il.2 p (cc_state c) in
      CConf r.1.2 ((λ tp, (tp.1, sees r.1.2 tp.2)) <$> <[il.1 := (t, r.1.1)]> (cc_calls c)) (cc_log c ++ ((λ e, (il.1, e)) <$> r.2))
  | None => c
  end.
Definition cstart (t : ccall) : cpc := match own_call t with Some _ => MIn QStart | None => MStart end.
Definition crun (s : cstate) (ts : list ccall) (sched : list (nat * option sid)) : cconf :=
  foldl cstep (CConf s ((λ t, (t, cstart t)) <$> ts) []) sched.
