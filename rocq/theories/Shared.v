(** The slice of arguments of an event, which everybody who sees the event is given: Go's f(args...) hands over the slice itself, not a copy.
    Source: socket/socket.go:553-564 (onevent: catch-all listeners), 753-768 (dispatch), 801-825 (run: middlewares), 291-311 (Emit), 998-1006
    (notifyOutgoingListeners); socket/adapter.go:144-164 (Broadcast: the packet is encoded first); socket/session-aware-adapter.go:124-144 (the stored
    packet keeps the slice), 78-122 and socket/socket.go:220-225 (the packets a client missed are sent again).
    Simplified: a listener or middleware writes into the slice while it runs, not later, and within its length; the nested values (maps, buffers), shared
    too, are not written; a middleware calls next once.  The handlers of the event itself are left out: what they do happens after. *)
From Verif Require Import Base GoTypes.

(** What a listener writes into its arguments, given them. *)
Definition hook := list value → list (nat * value).
Definition wr (ws : list (nat * value)) (a : list value) : list value := foldl (λ a w, <[w.1 := w.2]> a) a ws.
(** Listeners called one after another: what each of them is given, and the slice afterwards. *)
Fixpoint pass (hs : list hook) (a : list value) : list (list value) * list value :=
  match hs with
  | [] => ([], a)
  | h :: hs => let x := pass hs (wr (h a) a) in (a :: x.1, x.2)
  end.

(** A middleware: what it writes, and the error it gives to next. *)
Record mware := Mware { mw_hook : hook; mw_err : list value → option string }.
Inductive outcome := OErr (e : string) | OEvent (ev : string) (args : list value) | OPanic.
(** socket.go:801-825: a middleware sees the slice, writes and gives its verdict; 755-763: event[0].(string). *)
Fixpoint through (ms : list mware) (a : list value) : list (list value) * outcome :=
  match ms with
  | [] => ([], match a with VStr ev :: args => OEvent ev args | _ => OPanic end)
  | m :: ms => let a' := wr (mw_hook m a) a in
               match mw_err m a with Some e => ([a], OErr e) | None => let x := through ms a' in (a :: x.1, x.2) end
  end.
(** socket.go:553-564: who is given what, in order, and what becomes of the event. *)
Definition receive (anys : list hook) (ms : list mware) (a : list value) : list (list value) * outcome :=
  let x := pass anys a in let y := through ms x.2 in (x.1 ++ y.1, y.2).

(** Emit without connection state recovery, socket.go:308-311: the listeners, then the packet is encoded. Result: what they are given, what is sent. *)
Definition emit_direct (hs : list hook) (a : list value) : list (list value) * list value := pass hs a.
(** adapter.go:157-163: the packet is encoded, then for each target its listeners are called and the encoded packet is written.  Result: what the
    listeners are given, what each target is sent, the slice afterwards. *)
Definition broadcast (targets : list (list hook)) (a : list value) : list (list value) * list (list value) * list value :=
  let x := pass (concat targets) a in (x.1, (λ _, a) <$> targets, x.2).
(** session-aware-adapter.go:124-144: the offset is appended and the slice stored; 112 and socket.go:220-225: a client that missed the packet is
    sent the stored slice.  Result: as above; what is sent later is the slice afterwards. *)
Definition broadcast_stored (targets : list (list hook)) (a : list value) (offset : string) : list (list value) * list (list value) * list value :=
  broadcast targets (a ++ [VStr offset]).
