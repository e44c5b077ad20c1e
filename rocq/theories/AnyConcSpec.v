(** Vocabulary for catch-all listeners under concurrency. *)
From Verif Require Import Base GoTypes AnyListeners AnyConc.

(** The registrations and removals among the steps. *)
Definition regs (ls : list nlabel) : list aop := omap (λ x, match x with NReg o => Some o | _ => None end) ls.
(** A step which begins an event; a step of event [n]. *)
Definition is_begin (x : nlabel) : Prop := match x with NBegin _ => True | _ => False end.
Definition is_call (n : nat) (x : nlabel) : Prop := match x with NCall m => m = n | _ => False end.
Global Instance begin_dec (x : nlabel) : Decision (is_begin x). Proof. destruct x; cbn; apply _. Defined.
Global Instance call_dec n (x : nlabel) : Decision (is_call n x). Proof. destruct x; cbn; apply _. Defined.
(** Event [n] begins after the steps [pre]. *)
Definition begins (ls : list nlabel) (n : nat) (pre : list nlabel) (args : list value) (post : list nlabel) : Prop :=
  ls = pre ++ NBegin args :: post ∧ length (filter is_begin pre) = n.
(** How often event [n] went on. *)
Definition turns (n : nat) (ls : list nlabel) : nat := length (filter (is_call n) ls).
(** The calls made for event [n]. *)
Definition called (n : nat) (s : nstate) : list (listener * list value) := omap (λ e : nat * (listener * list value), if decide (e.1 = n) then Some e.2 else None) (ns_log s).
(** A removal; a registration of [l]. *)
Definition removes (o : aop) : Prop := match o with AOff _ => True | _ => False end.
Definition adds (l : listener) (o : aop) : Prop := o = AOn l ∨ o = APrepend l.
(** The events of a history. *)
Definition events (h : list aop) : nat := length (omap (λ o, match o with AEvent args => Some args | _ => None end) h).
(** Steps [ls] make the operations [h] in turn: the calls for an event all come before the next operation. *)
Inductive in_turn : list aop → list nlabel → Prop :=
  | it_nil : in_turn [] []
  | it_reg h ls o : in_turn h ls → (∀ args, o ≠ AEvent args) → in_turn (h ++ [o]) (ls ++ [NReg o])
  | it_event h ls args k : in_turn h ls → length (as_listeners (arun h)) ≤ k → in_turn (h ++ [AEvent args]) (ls ++ NBegin args :: replicate k (NCall (events h))).
