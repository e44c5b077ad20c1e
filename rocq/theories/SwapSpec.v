(** What the history of a namespace with several adapters says (C68): one history per adapter. *)
From Verif Require Import Base GoTypes Rooms Adapter AdapterSpec AdapterRun AdapterRunSpec Swap.

Definition wop_ok {P} (op : wop P) : Prop :=
  match op with
  | WClose _ o => order_ok o
  | WBroadcast _ _ o _ | WAddSockets _ o _ _ | WDelSockets _ o _ _ | WDisconnectSockets _ o _ => orders_ok o
  | _ => True
  end.
(** How many times the adapter was replaced; the ids of the sockets opened. *)
Definition changes {P} (h : list (wop P)) : nat := length (omap (λ op, match op with WSet => Some tt | _ => None end) h).
Definition opened {P} (h : list (wop P)) : list sid := omap (λ op, match op with WOpen id => Some id | _ => None end) h.
(** What the adapter [e] has to do with: the sockets opened while it is the current one, their operations, the broadcasts and bulk
    operations that go through it.  [cur]: the current adapter; [mine]: the sockets opened while [e] was. *)
Definition goes (e cur : nat) (mine : gset sid) (v : via) : bool :=
  match v with VNow => bool_decide (cur = e) | VKept e' => bool_decide (e' = e ∧ e ≤ cur) | VSock id => bool_decide (id ∈ mine) end.
Fixpoint part_from {P} (e cur : nat) (mine : gset sid) (h : list (wop P)) : list (nsop P) :=
  match h with
  | [] => []
  | WSet :: h => part_from e (S cur) mine h
  | WOpen id :: h => if decide (cur = e) then NOpen id :: part_from e cur ({[id]} ∪ mine) h else part_from e cur mine h
  | WJoin id rs :: h => (if decide (id ∈ mine) then [NJoin id rs] else []) ++ part_from e cur mine h
  | WLeave id r :: h => (if decide (id ∈ mine) then [NLeave id r] else []) ++ part_from e cur mine h
  | WClose id o :: h => (if decide (id ∈ mine) then [NClose id o] else []) ++ part_from e cur mine h
  | WBroadcast v p o opts :: h => (if goes e cur mine v then [NBroadcast p o opts] else []) ++ part_from e cur mine h
  | WAddSockets v o opts rs :: h => (if goes e cur mine v then [NAddSockets o opts rs] else []) ++ part_from e cur mine h
  | WDelSockets v o opts rs :: h => (if goes e cur mine v then [NDelSockets o opts rs] else []) ++ part_from e cur mine h
  | WDisconnectSockets v o opts :: h => (if goes e cur mine v then [NDisconnectSockets o opts] else []) ++ part_from e cur mine h
  end.
Definition part {P} (e : nat) (h : list (wop P)) : list (nsop P) := part_from e 0 ∅ h.
Definition sent_to {P} (id : sid) (s : swap P) : list P := (filter (λ w, w.1 = id) (sw_written s)).*2.
