(** Vocabulary for a connection with several sockets. *)
From Verif Require Import Base LifeConc LifeConcSpec ConnConc.

(** The events of socket [x], with the calls that emitted them. *)
Definition log_of (x : sid) (c : cconf) : list (nat * lev) :=
  omap (λ e : nat * (sid * lev), if decide (e.2.1 = x) then Some (e.1, e.2.2) else None) (cc_log c).
Definition cover (p : cpc) : bool := match p with MIn QDone | MNone | MDone => true | _ => false end.
(** All calls have returned. *)
Definition creturned (c : cconf) : Prop := ∀ t p, (t, p) ∈ cc_calls c → cover p = true.
(** What call [t] is for socket [x]; a call that does nothing with [x] is a Join of no room. *)
Definition seen_as (x : sid) (t : ccall) (u : lcall) : Prop :=
  match t with
  | CConnect y b => u = (if decide (y = x) then LcConnect x b else LcJoin ∅)
  | CPacket y => u = (if decide (y = x) then LcPacket else LcJoin ∅)
  | CDisconnect y => u = (if decide (y = x) then LcDisconnect else LcJoin ∅)
  | CJoin y rs => u = (if decide (y = x) then LcJoin rs else LcJoin ∅)
  | CLeave y r => u = (if decide (y = x) then LcLeave r else LcJoin ∅)
  | CDisconnectAll y => if decide (y = x) then u = LcDisconnectAll else u = LcClient ∨ u = LcJoin ∅
  | CTransport r => u = LcTransport r
  | CShutdown => u = LcShutdown
  end.
(** The calls that close [x] for certain when it is settled. *)
Definition must_close (x : sid) (t : ccall) : Prop :=
  match t with CTransport _ | CShutdown => True | CPacket y | CDisconnect y | CDisconnectAll y => y = x | _ => False end.
(** The number of events disconnect of [x]. *)
Definition byes_of (x : sid) (c : cconf) : nat := length (filter (λ e : nat * lev, Is_true (is_disconnect e.2)) (log_of x c)).
(** The calls that can close [x]. *)
Definition may_close (x : sid) (t : ccall) : Prop := match t with CDisconnectAll _ => True | _ => must_close x t end.
Global Instance may_close_dec x t : Decision (may_close x t).
Proof. destruct t; cbn; apply _. Defined.
(** The events disconnecting and disconnect of [x] that call [i] emitted. *)
Definition ends_of (x : sid) (i : nat) (c : cconf) : list lev :=
  filter (λ e, Is_true (is_life e)) (omap (λ e : nat * lev, if decide (e.1 = i) then Some e.2 else None) (log_of x c)).
(** What a closing call says of a socket that nothing else closes, on an open connection. *)
Definition farewell_of (t : ccall) : list lev :=
  match t with
  | CTransport r => farewell (LcTransport r) | CShutdown => farewell LcShutdown | CPacket _ => farewell LcPacket
  | CDisconnect _ => farewell LcDisconnect | CDisconnectAll _ => farewell LcDisconnectAll | _ => []
  end.
