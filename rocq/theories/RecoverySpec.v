(** Vocabulary for the statements about recovered sockets. *)
From Verif Require Import Base GoTypes Rooms Adapter Session SessionSpec Recovery.

(** The stored events handed to client [c], oldest first. *)
Definition received (s : rstate) (c : nat) : list (list value) :=
  omap (λ e, match e.2 with WEvent true d => if decide (e.1 = c) then Some d else None | _ => None end) (r_out s).

(** What the dependencies guarantee: admissible iteration orders, ids that were never used before,
    distinct packet identifiers, a clock that does not go back; and the API passes both sets. *)
Definition op_env (s : rstate) (op : rop) : Prop :=
  match op with
  | RCreate c auth id pid o1 o2 =>
      order_ok o1 ∧ order_ok o2 ∧ ∀ a, a ∈ r_heap s → rk_id a ≠ id ∧ rk_pid a ≠ pid ∧ rk_client a ≠ c
  | RRefuse _ o | RClose _ _ o => order_ok o
  | REmit pk b os => proper b ∧ orders_ok os
  | _ => True
  end.
Definition emissions (h : list (Z * rop)) : list (string * Z * bcast) :=
  omap (λ e, match e.2 with REmit pk b _ => if decide (recoverable b) then Some (pk, e.1, b) else None | _ => None end) h.
Record env_ok (csr : bool) (max : Z) (h : list (Z * rop)) : Prop := {
  env_ops : ∀ h1 t op h2, h = h1 ++ (t, op) :: h2 → op_env (rrun csr max h1) op;
  env_ids : NoDup ((λ y, y.1.1) <$> emissions h);
  env_clock : ∀ h1 t op h2, h = h1 ++ (t, op) :: h2 → ∀ e, e ∈ h2 → (t ≤ e.1)%Z
}.
(** Clients reconnect with a private id only when no socket with that private id is open. *)
Definition polite (csr : bool) (max : Z) (h : list (Z * rop)) : Prop :=
  ∀ h1 t c pid off id p o1 o2 h2, h = h1 ++ (t, RCreate c (Some (pid, off)) id p o1 o2) :: h2 →
    ∀ a, a ∈ r_heap (rrun csr max h1) → rk_pid a = pid → rk_can_join a = false.

(** The connection was lost or shut down, and not left on purpose. *)
Definition recoverable_cause (c : cause) : Prop :=
  match c with
  | ByServer | ByClient => False
  | ByForce | ByShutdown => True
  | ByTransport r => r ∈ ["transport error"; "transport close"; "forced close"; "ping timeout"; "server shutting down"; "forced server close"]
  end.
(** The step closes socket [k] (connected, with these fields) and saves its session. *)
Definition saves (csr : bool) (max : Z) (before : list (Z * rop)) (e : Z * rop) (k : nat) (a : rsock) : Prop :=
  ∃ c o, e.2 = RClose k c o ∧ r_heap (rrun csr max before) !! k = Some a ∧ rk_connected a = true ∧
    recoverable_cause c.

(** After the history [h], the last session saved for the private id [pid] is that of socket [k], closed by
    step [e] after [h1], when its fields were [a]. *)
Definition last_saved (csr : bool) (max : Z) (h : list (Z * rop)) (pid : string) (h1 : list (Z * rop)) (e : Z * rop) (k : nat) (a : rsock) (h2 : list (Z * rop)) : Prop :=
  h = h1 ++ e :: h2 ∧ saves csr max h1 e k a ∧ rk_pid a = pid ∧
  ∀ h3 e' h4 k' a', h2 = h3 ++ e' :: h4 → saves csr max (h1 ++ e :: h3) e' k' a' → rk_pid a' ≠ pid.

(** The recoverable broadcasts of [h] that concern a socket in the rooms [R]. *)
Definition aimed_at (R : gset room) (h : list (Z * rop)) : list (string * Z * bcast) :=
  filter (λ y, concerns R y.2) (emissions h).
(** The recoverable broadcasts of [h], issued after [before], that concern the socket with id [i] at the
    time they are issued. *)
Fixpoint aimed_live (csr : bool) (max : Z) (before : list (Z * rop)) (i : sid) (h : list (Z * rop)) : list (string * Z * bcast) :=
  match h with
  | [] => []
  | e :: h => aimed_at (rooms_of (r_reg (rrun csr max before)) i) [e] ++ aimed_live csr max (before ++ [e]) i h
  end.
