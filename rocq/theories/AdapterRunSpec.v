(** What the history of a namespace says, without its tables: who is in it, who is in which room, who received what. *)
From Verif Require Import Base GoTypes Rooms RoomsSpec Adapter AdapterSpec AdapterRun.

Record view := View { v_listed : sid → Prop; v_in : sid → room → Prop }.
Definition v_matches (v : view) (opts : option bopts) (id : sid) : Prop :=
  v_listed v id ∧ (opt_rooms opts = ∅ ∨ ∃ r, r ∈ opt_rooms opts ∧ v_in v id r) ∧ ¬ ∃ r, r ∈ opt_except opts ∧ v_in v id r.
Definition v_step {P} (v : view) (op : nsop P) : view :=
  match op with
  | NOpen id => View (λ j, v_listed v j ∨ j = id) (λ j r, v_in v j r ∨ (¬ v_listed v id ∧ j = id ∧ r = id))
  | NJoin id rs => View (v_listed v) (λ j r, v_in v j r ∨ (v_listed v id ∧ j = id ∧ r ∈ rs))
  | NLeave id r0 => View (v_listed v) (λ j r, v_in v j r ∧ ¬ (j = id ∧ r = r0))
  | NClose id _ => View (λ j, v_listed v j ∧ j ≠ id) (λ j r, v_in v j r ∧ j ≠ id)
  | NBroadcast _ _ _ => v
  | NAddSockets _ opts rs => View (v_listed v) (λ j r, v_in v j r ∨ (v_matches v opts j ∧ r ∈ rs))
  | NDelSockets _ opts rs => View (v_listed v) (λ j r, v_in v j r ∧ ¬ (v_matches v opts j ∧ r ∈ rs))
  | NDisconnectSockets _ opts => View (λ j, v_listed v j ∧ ¬ v_matches v opts j) (λ j r, v_in v j r ∧ ¬ v_matches v opts j)
  end.
Definition view_of {P} (h : list (nsop P)) : view := foldl v_step (View (λ _, False) (λ _ _, False)) h.
(** The socket [id] received exactly the packets [l], in this order. *)
Inductive received {P} : list (nsop P) → sid → list P → Prop :=
  | rec_nil id : received [] id []
  | rec_hit h id l p o opts : received h id l → v_matches (view_of h) opts id → received (h ++ [NBroadcast p o opts]) id (l ++ [p])
  | rec_miss h id l p o opts : received h id l → ¬ v_matches (view_of h) opts id → received (h ++ [NBroadcast p o opts]) id l
  | rec_other h id l op : received h id l → (∀ p o opts, op ≠ NBroadcast p o opts) → received (h ++ [op]) id l.
Definition packets_of {P} (id : sid) (s : nspace P) : list P := (filter (λ w, w.1 = id) (ns_written s)).*2.
