(** Vocabulary for the arguments of emissions. *)
From Verif Require Import Base GoTypes Args.

(** The arrays of the caller as it wrote them itself. *)
Definition own_step (l : list (list value)) (op : aop) : list (list value) :=
  match op with ANew vs => l ++ [vs] | ASet n i v => <[n := <[i := v]> (default [] (l !! n))]> l | _ => l end.
Definition owned (h : list aop) : list (list value) := foldl own_step [] h.
(** What the caller passes with a slice, according to its arrays. *)
Definition passes (l : list (list value)) (s : slice) : list value :=
  match sl_ref s with Caller n => take (sl_len s) (drop (sl_off s) (default [] (l !! n))) | Lib _ => [] end.
(** A slice of an array of the caller (or nil). *)
Definition slice_ok (l : list (list value)) (s : slice) : Prop :=
  sl_len s ≤ sl_cap s ∧ ∃ n, sl_ref s = Caller n ∧ (sl_cap s = 0 ∨ ∃ a, l !! n = Some a ∧ sl_off s + sl_cap s ≤ length a).
Definition op_ok (l : list (list value)) (op : aop) : Prop :=
  match op with AEmit _ _ s | AWithAck _ s | AParent _ _ s => slice_ok l s | _ => True end.
Definition ops_ok (h : list aop) : Prop := ∀ h1 op h2, h = h1 ++ op :: h2 → op_ok (owned h1) op.
(** The slices given to EmitWithAck have no spare room, like those of a call with listed arguments. *)
Definition full (s : slice) : Prop := sl_len s = sl_cap s.
Definition all_full (h : list aop) : Prop := ∀ ev s, AWithAck ev s ∈ h → full s.
(** The functions that EmitWithAck returned. *)
Definition functions (h : list aop) : list (string * slice) := omap (λ op, match op with AWithAck ev s => Some (ev, s) | _ => None end) h.
(** The payload of an emission: the event, the arguments without callback, and the offset if the packet is stored. *)
Definition with_callback (args : list value) : bool := match last args with Some (VAck _) => true | _ => false end.
Definition no_callback (args : list value) : list value := if with_callback args then take (length args - 1) args else args.
Definition stored_kind (o : eopts) (args : list value) : bool := eo_recovery o && negb (with_callback args) && negb (eo_volatile o).
Definition payload (o : eopts) (ev : string) (args : list value) : list value :=
  VStr ev :: no_callback args ++ (if stored_kind o args then [VStr (eo_offset o)] else []).
(** The payloads of a broadcast of a parent namespace, child by child. *)
Fixpoint payloads (d : list value) (os : list eopts) : list (list value) :=
  match os with [] => [] | o :: os => let d' := d ++ (if eo_recovery o && negb (eo_volatile o) then [VStr (eo_offset o)] else []) in d' :: payloads d' os end.
(** What an operation sends and stores when the arrays of the caller are [l] and the functions [fs]. *)
Definition sends (l : list (list value)) (fs : list (string * slice)) (op : aop) : list (list value) :=
  match op with
  | AEmit o ev s => [payload o ev (passes l s)]
  | ACall k a o => match fs !! k with Some (ev, s) => [payload o ev (passes l s ++ [VAck a])] | None => [] end
  | AParent os ev s => payloads (VStr ev :: passes l s) os
  | _ => []
  end.
Definition stores (l : list (list value)) (fs : list (string * slice)) (op : aop) : list (list value) :=
  match op with
  | AEmit o ev s => if stored_kind o (passes l s) then [payload o ev (passes l s)] else []
  | AParent os ev s => omap (λ x, if eo_recovery x.1 && negb (eo_volatile x.1) then Some x.2 else None) (zip os (payloads (VStr ev :: passes l s) os))
  | _ => []
  end.
(** The outgoing listeners write nothing into their arguments: at all, or where the packet is encoded after they are called. *)
Definition still (op : aop) : Prop := match op with AEmit o _ _ | ACall _ _ o => eo_writes o = [] | AParent os _ _ => Forall (λ o, eo_writes o = []) os | _ => True end.
Definition quiet (op : aop) : Prop :=
  match op with AEmit o _ _ | ACall _ _ o => eo_direct o = true → eo_recovery o = false → eo_writes o = [] | _ => still op end.
Fixpoint over_history (f : list (list value) → list (string * slice) → aop → list (list value)) (past h : list aop) : list (list value) :=
  match h with [] => [] | op :: h => f (owned past) (functions past) op ++ over_history f (past ++ [op]) h end.
