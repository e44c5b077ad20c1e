(** Properties C30, C31, C32: sockets across reconnections. *)
From Verif Require Import Base GoTypes Rooms RoomsSpec Adapter AdapterSpec Session SessionSpec Recovery RecoverySpec RecoveryProofs RecoveryProofs2 RecoveryProofs3 RecoveryExamples.

(** ** C30 A recovered socket gets back its identity, rooms and data
    [last_saved] names the socket whose session was saved last for the private id: [a] are its fields and
    [h1] the history when it was closed. *)
Theorem C30_recovered_state : ∀ (max : Z) (h : list (Z * rop)) (t : Z) (c : nat) (pid off id p : string) (o1 o2 : order),
  let e := (t, RCreate c (Some (pid, off)) id p o1 o2) in
  env_ok true max (h ++ [e]) → polite true max (h ++ [e]) →
  let s := rrun true max h in
  let s' := rrun true max (h ++ [e]) in
  ∀ a', r_heap s' !! length (r_heap s) = Some a' → rk_recovered a' = true →
  ∃ h1 e1 k a h2, last_saved true max h pid h1 e1 k a h2 ∧
    rk_id a' = rk_id a ∧ rk_pid a' = rk_pid a ∧ rk_data a' = rk_data a ∧
    rooms_of (r_reg s') (rk_id a) = rooms_of (r_reg (rrun true max h1)) (rk_id a).
Proof. exact recovered_state. Qed.
Print Assumptions C30_recovered_state.
(** When it is admitted it joins the room named by its id (again). *)
Theorem C30_rooms_after_connect : ∀ (max : Z) (h : list (Z * rop)) (t : Z) (k : nat),
  env_ok true max h → polite true max h → let s := rrun true max h in
  ∀ a, r_heap s !! k = Some a → rk_connected a = false → rk_can_join a = true →
  rooms_of (r_reg (rrun true max (h ++ [(t, RFinish k)]))) (rk_id a) = {[rk_id a]} ∪ rooms_of (r_reg s) (rk_id a).
Proof. exact finish_rooms. Qed.
Print Assumptions C30_rooms_after_connect.
(** Missing for the full claim: clients that present a private id whose socket is still open ([polite]). *)
Theorem C30_unique_partial : ∀ (max : Z) (h : list (Z * rop)) (k1 k2 : nat) (a1 a2 : rsock),
  env_ok true max h → polite true max h → let s := rrun true max h in
  r_heap s !! k1 = Some a1 → r_heap s !! k2 = Some a2 → rk_connected a1 = true → rk_connected a2 = true →
  rk_id a1 = rk_id a2 → k1 = k2.
Proof. exact connected_unique. Qed.
Print Assumptions C30_unique_partial.

Example C30_example : env_ok true 100 trip_back ∧ polite true 100 trip_back ∧
  r_heap (rrun true 100 trip_back) !! length (r_heap (rrun true 100 trip_gone)) = Some (RSock "i" "p" 2 (VNum 7) true false true) ∧
  rooms_of (r_reg (rrun true 100 trip_back)) "i" = {["i"; "r"; "q"]} ∧ rooms_of (r_reg (rrun true 100 trip_gone)) "i" = ∅ ∧
  connected_ids (rrun true 100 (trip [])) = ["i"].
Proof. split; [exact trip_back_env|]. split; [exact trip_back_polite|]. repeat (split; [first [by_eval|vm_compute; reflexivity]|]). by_eval. Qed.

(** A session stays in the store when it is restored: a second client that presents the same private id
    gets a second connected socket with the same id. *)
Theorem C30_two_sockets_refuted : ∃ (max : Z) (h : list (Z * rop)) (k1 k2 : nat) (a1 a2 : rsock),
  env_ok true max h ∧ k1 ≠ k2 ∧ r_heap (rrun true max h) !! k1 = Some a1 ∧ r_heap (rrun true max h) !! k2 = Some a2 ∧
  rk_connected a1 = true ∧ rk_connected a2 = true ∧ rk_id a1 = rk_id a2.
Proof.
  exists 100%Z, (trip twice), 2, 3. eexists _, _. split; [exact twice_env|]. split; [done|]. split; [vm_compute; reflexivity|]. split; [vm_compute; reflexivity|]. done.
Qed.
Print Assumptions C30_two_sockets_refuted.
(** The room of its own id comes back even if the socket had left it. *)
Theorem C30_own_room_refuted : ∃ (max : Z) (h : list (Z * rop)) (h1 h2 : list (Z * rop)) (e : Z * rop) (a : rsock),
  env_ok true max h ∧ polite true max h ∧ last_saved true max (h1 ++ e :: h2) (rk_pid a) h1 e 0 a h2 ∧ (∃ h3, h = (h1 ++ e :: h2) ++ h3) ∧
  rk_id a ∉ rooms_of (r_reg (rrun true max h1)) (rk_id a) ∧
  (∃ k a', r_heap (rrun true max h) !! k = Some a' ∧ rk_recovered a' = true ∧ rk_connected a' = true ∧ rk_id a' = rk_id a) ∧
  rk_id a ∈ rooms_of (r_reg (rrun true max h)) (rk_id a).
Proof. exact own_room. Qed.
Print Assumptions C30_own_room_refuted.

(** ** C31 No broadcast is lost across a recovered reconnection
    The socket [k] of private id [rk_pid a] is connected after [h0]; the last packet that reached its client
    is [off]; the connection breaks ([RClose]); a new connection [c'] presents the private id and [off] and
    is recovered as socket [k'] ([RCreate]), which is admitted ([RFinish]) after [hw].  Then the old
    connection was given the packets until the break, and the new one exactly the packets after [off] that
    concern the socket: those before the break, those in between, those after the admission, each once.
    Missing for the full claim: the packets of [hw], sent while the new socket is being admitted
    (they are lost, see below); changes of rooms between [off] and the break. *)
Theorem C31_no_loss_partial : ∀ (max : Z) (h0 : list (Z * rop)) (t0 : Z) (off : string) (b0 : bcast) (os0 : orders) (h1 : list (Z * rop))
    (t1 : Z) (k : nat) (cz : cause) (o : order) (h2 : list (Z * rop))
    (t2 : Z) (c' : nat) (id' pid' : string) (o1 o2 : order) (hw : list (Z * rop)) (t3 : Z) (h3 : list (Z * rop)) (a : rsock),
  let before := h0 ++ (t0, REmit off b0 os0) :: h1 in
  let gone := before ++ (t1, RClose k cz o) :: h2 in
  let back := gone ++ [(t2, RCreate c' (Some (rk_pid a, off)) id' pid' o1 o2)] in
  let k' := length (r_heap (rrun true max gone)) in
  let admitted := (back ++ hw) ++ [(t3, RFinish k')] in
  let whole := admitted ++ h3 in
  let R := rooms_of (r_reg (rrun true max before)) (rk_id a) in
  env_ok true max whole → polite true max whole →
  (* the socket is connected, gets the packet off, and keeps its rooms until it is closed *)
  r_heap (rrun true max h0) !! k = Some a → rk_connected a = true → recoverable b0 →
  (∀ p q, (t0, REmit off b0 os0) :: h1 = p ++ q → rooms_of (r_reg (rrun true max (h0 ++ p))) (rk_id a) = R) → concerns R b0 →
  (∃ a1, r_heap (rrun true max before) !! k = Some a1 ∧ rk_connected a1 = true) → recoverable_cause cz →
  (* this is the next reconnection, it recovers, is admitted, and is still open *)
  (∀ t c off id p o1 o2, (t, RCreate c (Some (rk_pid a, off)) id p o1 o2) ∉ h2) →
  (∃ a2, r_heap (rrun true max back) !! k' = Some a2 ∧ rk_recovered a2 = true) → (∀ t, (t, RFinish k') ∉ hw) →
  (∃ a3, r_heap (rrun true max whole) !! k' = Some a3 ∧ rk_connected a3 = true) →
  received (rrun true max before) (rk_client a) = received (rrun true max h0) (rk_client a) ++ (bc_data b0 ++ [VStr off]) :: (wire_data <$> aimed_at R h1) ∧
  received (rrun true max whole) c' = wire_data <$> (aimed_at R h1 ++ aimed_at R h2 ++ aimed_live true max admitted (rk_id a) h3) ∧
  NoDup (received (rrun true max whole) c').
Proof. exact no_loss. Qed.
Print Assumptions C31_no_loss_partial.
Example C31_example : env_ok true 100 (trip []) ∧ polite true 100 (trip []) ∧
  r_heap (rrun true 100 trip0) !! 0 = Some (RSock "i" "p" 0 (VNum 7) false true true) ∧
  received (rrun true 100 (trip [])) 0 = [[VStr "first"; VStr "k1"]; [VStr "live"; VStr "k2"]] ∧
  received (rrun true 100 (trip [])) 2 = [[VStr "live"; VStr "k2"]; [VStr "missed"; VStr "k4"]; [VStr "after"; VStr "k6"]] ∧
  length (r_heap (rrun true 100 trip_gone)) = 2.
Proof. split; [exact trip_env|]. split; [exact trip_polite|]. repeat (split; [vm_compute; reflexivity|]). reflexivity. Qed.
(** A packet broadcast between the restoration of the session and the admission of the socket is neither
    replayed nor delivered live; the packets before and after it are. *)
Theorem C31_window_refuted : ∃ (max : Z) (h : list (Z * rop)) (c : nat) (t : Z) (pk : string) (b : bcast) (a : rsock),
  env_ok true max h ∧ polite true max h ∧ (∃ k, r_heap (rrun true max h) !! k = Some a) ∧ rk_connected a = true ∧ rk_recovered a = true ∧ rk_client a = c ∧
  (∃ os, (t, REmit pk b os) ∈ h) ∧ recoverable b ∧ concerns (rooms_of (r_reg (rrun true max h)) (rk_id a)) b ∧
  (∃ t1 pk1 b1 os1 t2 pk2 b2 os2, (t1, REmit pk1 b1 os1) ∈ h ∧ (t2, REmit pk2 b2 os2) ∈ h ∧ (t1 < t < t2)%Z ∧
    received (rrun true max h) c = [bc_data b1 ++ [VStr pk1]; bc_data b2 ++ [VStr pk2]]) ∧
  (∀ c', bc_data b ++ [VStr pk] ∉ received (rrun true max h) c').
Proof. exact window_lost. Qed.
Print Assumptions C31_window_refuted.

(** ** C32 Sessions are saved for recoverable reasons only *)
Theorem C32_saved_iff : ∀ (csr : bool) (max : Z) (h : list (Z * rop)) (t : Z) (k : nat) (c : cause) (o : order) (a : rsock),
  let s := rrun csr max h in
  let s' := rrun csr max (h ++ [(t, RClose k c o)]) in
  r_heap s !! k = Some a → rk_connected a = true →
  (csr = true ∧ recoverable_cause c →
    st_sessions (r_store s') = <[rk_pid a := (Session (rk_id a) (rk_pid a) (rooms_of (r_reg s) (rk_id a)) (rk_data a), t)]> (st_sessions (r_store s))) ∧
  (¬ (csr = true ∧ recoverable_cause c) →
    st_sessions (r_store s') = st_sessions (r_store s)).
Proof. exact saved_iff_reason. Qed.
Print Assumptions C32_saved_iff.
Theorem C32_explicit_never : ∀ (csr : bool) (max : Z) (h : list (Z * rop)) (t : Z) (k : nat) (c : cause) (o : order),
  c = ByServer ∨ c = ByClient → st_sessions (r_store (rrun csr max (h ++ [(t, RClose k c o)]))) = st_sessions (r_store (rrun csr max h)).
Proof. exact explicit_never. Qed.
Print Assumptions C32_explicit_never.
(** No other step saves a session (a restoration and the periodic cleanup can only remove some). *)
Theorem C32_only_on_close : ∀ (csr : bool) (max : Z) (h : list (Z * rop)) (e : Z * rop),
  (∀ k c o a, e.2 = RClose k c o → r_heap (rrun csr max h) !! k = Some a → rk_connected a = false) →
  st_sessions (r_store (rrun csr max (h ++ [e]))) ⊆ st_sessions (r_store (rrun csr max h)).
Proof. exact only_on_close. Qed.
Print Assumptions C32_only_on_close.
Example C32_example : let s c := st_sessions (r_store (rrun true 100 (trip0 ++ [(9%Z, RClose 0 c ord_std)]))) in
  (∃ x, s (ByTransport "ping timeout") = {["p" := (x, 9%Z)]} ∧ se_sid x = "i" ∧ se_pid x = "p" ∧ se_data x = VNum 7 ∧ se_rooms x = {["i"; "r"; "q"]}) ∧ s ByShutdown = s (ByTransport "transport error") ∧
  s ByServer = ∅ ∧ s ByClient = ∅ ∧ s (ByTransport "parse error") = ∅ ∧
  st_sessions (r_store (rrun false 100 (trip0 ++ [(9%Z, RClose 0 ByShutdown ord_std)]))) = ∅.
Proof.
  split; [|repeat (split; [vm_compute; reflexivity|]); vm_compute; reflexivity].
  eexists. split; [vm_compute; reflexivity|]. repeat (split; [reflexivity|]). by_eval.
Qed.
