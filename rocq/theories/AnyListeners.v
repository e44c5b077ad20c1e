(** Model of the catch-all listeners of a socket.  Source: socket/socket.go:556-563, 879-1006.
    The incoming and the outgoing listeners are two instances of the same model.
    Dependency (types.Slice): Push, Unshift, Clear; RangeAndSplice visits the entries from the first and
    splices at the first one for which its argument returns true; All returns a copy. *)
From Verif Require Import Base GoTypes.

(** An events.Listener: a function value.  [li_code] is what reflect.Value.Pointer() returns, the address of
    the code; closures made by the same function literal share it and differ in [li_env]. *)
Record listener := Listener { li_code : nat; li_env : nat }.
#[global] Instance listener_eq_dec : EqDecision listener.
Proof. solve_decision. Defined.

Inductive aop :=
  | AOn (l : listener)                  (* OnAny, OnAnyOutgoing *)
  | APrepend (l : listener)             (* PrependAny, PrependAnyOutgoing *)
  | AOff (l : option listener)          (* OffAny, OffAnyOutgoing; None is nil *)
  | AEvent (args : list value).         (* an event is received (sent) *)

(** RangeAndSplice with a one-element splice at the first match. *)
Fixpoint splice_first {A} (p : A → bool) (l : list A) : list A :=
  match l with [] => [] | x :: l => if p x then l else x :: splice_first p l end.
Record astate := AState { as_listeners : list listener; as_called : list (listener * list value) }.
Definition astep (s : astate) (op : aop) : astate :=
  match op with
  | AOn l => AState (as_listeners s ++ [l]) (as_called s)                                      (* socket.go:879-882 *)
  | APrepend l => AState (l :: as_listeners s) (as_called s)                                   (* socket.go:888-891 *)
  | AOff (Some l) => AState (splice_first (λ x, bool_decide (li_code x = li_code l)) (as_listeners s)) (as_called s)   (* socket.go:912-918 *)
  | AOff None => AState [] (as_called s)                                                       (* socket.go:919-921 *)
  | AEvent args => AState (as_listeners s) (as_called s ++ ((λ l, (l, args)) <$> as_listeners s))  (* socket.go:560-562, 998-1006 *)
  end.
Definition arun (h : list aop) : astate := foldl astep (AState [] []) h.
