(** Vocabulary for emissions to several connections. *)
From Verif Require Import Base Emissions.

(** Write [i] of goroutine [t] goes to connection [c] and belongs to emission [k], [e]. *)
Definition is_write (ps : list (list emission)) (t i : nat) (w : ewrite) : Prop := ∃ es, ps !! t = Some es ∧ writes es !! i = Some w.
(** It has returned with this result; it has not begun. *)
Definition returned (s : est) (t i : nat) (r : eres) : Prop := ∃ x, es_thr s !! t = Some x ∧ et_res x !! i = Some r.
Definition begun (s : est) (t i : nat) : Prop :=
  ∃ x, es_thr s !! t = Some x ∧ (i < length (et_res x) ∨ i = length (et_res x) ∧ et_pc x ≠ EEnter).
(** All writes of emission [k] of goroutine [t] have returned; none has begun. *)
Definition over (ps : list (list emission)) (s : est) (t k : nat) : Prop := ∀ i w, is_write ps t i w → ew_num w = k → ∃ r, returned s t i r.
Definition ahead (ps : list (list emission)) (s : est) (t k : nat) : Prop := ∀ i w, is_write ps t i w → ew_num w = k → ¬ begun s t i.
(** The frames of a write, as they appear on its connection. *)
Definition block (ps : list (list emission)) (b : nat * nat) : list (nat * nat * string) :=
  match ps !! b.1 with
  | Some es => match writes es !! b.2 with Some w => (λ f, (b.1, b.2, f)) <$> em_frames (ew_em w) | None => [] end
  | None => []
  end.
(** A frame on a connection belongs to emission [k] of goroutine [t]. *)
Definition belongs (ps : list (list emission)) (t k : nat) (x : nat * nat * string) : Prop :=
  x.1.1 = t ∧ ∃ w, is_write ps t x.1.2 w ∧ ew_num w = k.
(** On connection [c] nothing of the second emission comes before anything of the first. *)
Definition in_order (ps : list (list emission)) (s : est) (c : nat) (t k u m : nat) : Prop :=
  ∃ l1 l2, ec_log (es_conn s c) = l1 ++ l2 ∧ (∀ x, x ∈ l1 → ¬ belongs ps u m x) ∧ (∀ x, x ∈ l2 → ¬ belongs ps t k x).
(** Goroutine [t] made the step [pc] of its write [i] while [P] held of the connection. *)
Definition at_moment (ps : list (list emission)) (ls : list elabel) (t i : nat) (pc : epc) (P : econn → Prop) : Prop :=
  ∃ l1 l2 x w, ls = l1 ++ inl t :: l2 ∧ es_thr (e_run ps l1) !! t = Some x ∧ length (et_res x) = i ∧ et_pc x = pc ∧
    is_write ps t i w ∧ P (es_conn (e_run ps l1) (ew_conn w)).
(** The goroutine has done everything. *)
Definition finished (s : est) (t : nat) : Prop := ∃ x, es_thr s !! t = Some x ∧ length (et_res x) = length (et_writes x).
Definition all_finished (s : est) : Prop := ∀ t, t < length (es_thr s) → finished s t.
(** It waits for the mutex of a connection; it can make a step. *)
Definition waits (s : est) (t : nat) : Prop :=
  ∃ x w, es_thr s !! t = Some x ∧ et_writes x !! length (et_res x) = Some w ∧ et_pc x = ELock ∧ ec_lock (es_conn s (ew_conn w)) ≠ None.
Definition can_step (s : est) (t : nat) : Prop := t < length (es_thr s) ∧ ¬ finished s t ∧ ¬ waits s t.
(** No step of the schedule is idle. *)
Definition busy (ps : list (list emission)) (ls : list elabel) : Prop := ∀ l1 t l2, ls = l1 ++ inl t :: l2 → can_step (e_run ps l1) t.
Definition steps (ls : list elabel) : nat := length (omap (λ l, match l with inl t => Some t | inr _ => None end) ls).
(** Number of steps the programs need. *)
Definition work (ps : list (list emission)) : nat := sum_list_with (λ es, sum_list_with (λ w, 5 + length (em_frames (ew_em w))) (writes es)) ps.
