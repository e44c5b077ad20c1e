(** The arguments of emissions in memory: Go slices and what the library does with those of its caller.
    Source: socket/socket.go:280-344 (Emit, EmitWithAck), 997-1009 (outgoing catch-all listeners), socket/broadcast-operator.go:175-200,
    265-269, socket/session-aware-adapter.go:124-144, socket/adapter.go:145-165, socket/parent-broadcast-adapter.go:39-43.
    Simplified: one socket or namespace; every broadcast has a target, whose listeners may write into the arguments they are given;
    a packet with acknowledgement stores no more than its data. *)
From Verif Require Import Base GoTypes.

(** Arrays of the caller and arrays allocated by the library. *)
Inductive aref := Caller (n : nat) | Lib (n : nat).
Record slice := Slice { sl_ref : aref; sl_off : nat; sl_len : nat; sl_cap : nat }.
Record memory := Memory { mm_caller : list (list value); mm_lib : list (list value) }.
Definition array (m : memory) (r : aref) : list value := default [] (match r with Caller n => mm_caller m !! n | Lib n => mm_lib m !! n end).
Definition set_array (r : aref) (a : list value) (m : memory) : memory :=
  match r with Caller n => Memory (<[n := a]> (mm_caller m)) (mm_lib m) | Lib n => Memory (mm_caller m) (<[n := a]> (mm_lib m)) end.
Definition contents (m : memory) (s : slice) : list value := take (sl_len s) (drop (sl_off s) (array m (sl_ref s))).
(** The built-in append: in place if the capacity suffices, else into a new array with some spare room ([grow]). *)
Definition go_append (grow : nat → nat) (s : slice) (vs : list value) (m : memory) : memory * slice :=
  if decide (sl_len s + length vs ≤ sl_cap s)
  then let a := array m (sl_ref s) in let i := sl_off s + sl_len s in
       (set_array (sl_ref s) (take i a ++ vs ++ drop (i + length vs) a) m, Slice (sl_ref s) (sl_off s) (sl_len s + length vs) (sl_cap s))
  else let a := contents m s ++ vs in
       (Memory (mm_caller m) (mm_lib m ++ [a ++ replicate (grow (length a)) VNil]), Slice (Lib (length (mm_lib m))) 0 (length a) (length a + grow (length a))).
(** Writes through a slice (by listeners), within its capacity. *)
Definition poke (s : slice) (m : memory) (w : nat * value) : memory :=
  if decide (w.1 < sl_cap s) then set_array (sl_ref s) (<[sl_off s + w.1 := w.2]> (array m (sl_ref s))) m else m.
Definition pokes (s : slice) (ws : list (nat * value)) (m : memory) : memory := foldl (poke s) m ws.

Record astate := AState {
  as_mem : memory;
  as_sent : list (list value);             (* the payloads encoded and written *)
  as_stored : list slice;                  (* PersistedPacket.Data, session-aware-adapter.go:136-141 *)
  as_funcs : list (string * slice)         (* the functions returned by EmitWithAck: event, captured arguments *)
}.
Definition astate0 : astate := AState (Memory [] []) [] [] [].
Definition set_mem (m : memory) (s : astate) : astate := AState m (as_sent s) (as_stored s) (as_funcs s).

(** Emissions. *)
Record eopts := EOpts {
  eo_recovery : bool;                      (* connection state recovery *)
  eo_direct : bool;                        (* Socket.Emit; else an operator's Emit *)
  eo_volatile : bool;
  eo_offset : string;                      (* utils.YeastDate() *)
  eo_writes : list (nat * value)           (* what the outgoing listeners write into the arguments they are given *)
}.
(** [data := append([]any{ev}, args...)]: socket.go:284, broadcast-operator.go:180. *)
Definition make_data (grow : nat → nat) (ev : string) (args : slice) (m : memory) : memory * slice :=
  go_append grow (Slice (Lib (length (mm_lib m))) 0 1 1) (contents m args) (Memory (mm_caller m) (mm_lib m ++ [[VStr ev]])).
(** [data[data_len-1].(Ack)], [data[:data_len-1]]: socket.go:291-294, broadcast-operator.go:188-200. *)
Definition ends_in_ack (l : list value) : bool := match last l with Some (VAck _) => true | _ => false end.
Definition but_last (s : slice) : slice := Slice (sl_ref s) (sl_off s) (sl_len s - 1) (sl_cap s).
(** session-aware-adapter.go:124-144 around adapter.go:145-165: the offset is appended and the packet stored; the packet is encoded;
    the listeners are notified. *)
Definition session_broadcast (grow : nat → nat) (o : eopts) (ack : bool) (d : slice) (s : astate) : slice * astate :=
  let keep := eo_recovery o && negb ack && negb (eo_volatile o) in
  let '(m, d') := if keep then go_append grow d [VStr (eo_offset o)] (as_mem s) else (as_mem s, d) in
  (d', AState (pokes d' (eo_writes o) m) (as_sent s ++ [contents m d']) (if keep then as_stored s ++ [d'] else as_stored s) (as_funcs s)).
(** socket.go:307-318: Emit without recovery notifies the listeners, then encodes and writes. *)
Definition emit (grow : nat → nat) (o : eopts) (ev : string) (args : slice) (s : astate) : astate :=
  let '(m, d) := make_data grow ev args (as_mem s) in
  let ack := ends_in_ack (contents m d) in let d' := if ack then but_last d else d in
  if eo_direct o && negb (eo_recovery o)
  then let m' := pokes d' (eo_writes o) m in AState m' (as_sent s ++ [contents m' d']) (as_stored s) (as_funcs s)
  else (session_broadcast grow o ack d' (set_mem m s)).2.
(** parent-broadcast-adapter.go:39-43: the same packet through the adapter of every child. *)
Fixpoint children (grow : nat → nat) (os : list eopts) (ack : bool) (d : slice) (s : astate) : astate :=
  match os with [] => s | o :: os => let '(d', s') := session_broadcast grow o ack d s in children grow os ack d' s' end.
Definition parent_emit (grow : nat → nat) (os : list eopts) (ev : string) (args : slice) (s : astate) : astate :=
  let '(m, d) := make_data grow ev args (as_mem s) in children grow os false d (set_mem m s).

Inductive aop :=
  | ANew (vs : list value)                           (* the caller allocates an array *)
  | ASet (n i : nat) (v : value)                     (* the caller writes into its array *)
  | AEmit (o : eopts) (ev : string) (args : slice)   (* Emit(ev, args...) *)
  | AWithAck (ev : string) (args : slice)            (* f := EmitWithAck(ev, args...) *)
  | ACall (k : nat) (a : nat) (o : eopts)            (* the k-th such function is called, with the callback [a] *)
  | AParent (os : list eopts) (ev : string) (args : slice).
Definition astep (grow : nat → nat) (s : astate) (op : aop) : astate :=
  match op with
  | ANew vs => set_mem (Memory (mm_caller (as_mem s) ++ [vs]) (mm_lib (as_mem s))) s
  | ASet n i v => set_mem (set_array (Caller n) (<[i := v]> (array (as_mem s) (Caller n))) (as_mem s)) s
  | AEmit o ev args => emit grow o ev args s
  | AWithAck ev args => AState (as_mem s) (as_sent s) (as_stored s) (as_funcs s ++ [(ev, args)])
  | ACall k a o => match as_funcs s !! k with
                   | Some (ev, args) => let '(m, args') := go_append grow args [VAck a] (as_mem s) in emit grow o ev args' (set_mem m s)
                   | None => s
                   end
  | AParent os ev args => parent_emit grow os ev args s
  end.
Definition arun (grow : nat → nat) (h : list aop) : astate := foldl (astep grow) astate0 h.
