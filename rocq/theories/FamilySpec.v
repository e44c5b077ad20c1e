(** What the history of a parent namespace says (C69): one history per child, one collection of replies per child and emission. *)
From Verif Require Import Base GoTypes Rooms Adapter AdapterSpec AdapterRun AdapterRunSpec BcastAck BcastAckSpec Family.

Definition keys_ok (ks : gset nat → list nat) : Prop := ∀ X, ks X ≡ₚ elements X.
Definition fop_ok {P} (op : fop P) : Prop :=
  match op with
  | FChild _ op => nsop_ok op
  | FEmit _ ks os | FVia _ ks os _ | FEmitAck _ ks os => keys_ok ks ∧ ∀ n, orders_ok (os n)
  | FViaAck _ o _ | FJoin o _ _ | FLeave o _ _ | FDisconnect o _ => orders_ok o
  | FCreate _ | FDrop _ | FAnswer _ _ => True
  end.
(** The history of child [n] since it was created; [None] when there is none. *)
Definition kid_step {P} (n : nat) (cur : option (list (nsop P))) (op : fop P) : option (list (nsop P)) :=
  match op with
  | FCreate m => if decide (m = n) then Some (default [] cur) else cur
  | FDrop m => if decide (m = n) then None else cur
  | FChild m op => if decide (m = n) then (λ l, l ++ [op]) <$> cur else cur
  | FEmit p _ os | FEmitAck p _ os => (λ l, l ++ [NBroadcast p (os n) None]) <$> cur
  | FVia p _ os opts => (λ l, l ++ [NBroadcast p (os n) opts]) <$> cur
  | _ => cur
  end.
Definition kid {P} (n : nat) (h : list (fop P)) : option (list (nsop P)) := foldl (kid_step n) None h.
Definition asked {P} (h : list (fop P)) : nat := length (omap (λ op, match op with FEmitAck _ _ _ | FViaAck _ _ _ => Some () | _ => None end) h).
(** The replies of clients and the timer of collection [i]. *)
Definition answers {P} (i : nat) (h : list (fop P)) : list bevent :=
  omap (λ op, match op with FAnswer k r => if decide (k = i) then Some (match r with Some a => EbReply a | None => EbTimer end) else None | _ => None end) h.
(** Child [n] has [c] clients. *)
Definition clients {P} (n : nat) (h : list (fop P)) (c : nat) : Prop :=
  ∃ l L, kid n h = Some l ∧ NoDup L ∧ (∀ id, id ∈ L ↔ v_listed (view_of l) id) ∧ length L = c.
Definition is_bulk {P} (op : fop P) : Prop := match op with FJoin _ _ _ | FLeave _ _ _ | FDisconnect _ _ => True | _ => False end.
