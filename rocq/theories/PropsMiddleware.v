(** Properties C17, C18: namespace and socket middlewares. *)
From Verif Require Import Base GoTypes Middleware MiddlewareSpec MiddlewareProofs.

(** ** C17 Namespace middlewares gate every connection
    Whatever the middlewares do and however the goroutines interleave: if attempt [a] connects,
    then it is a recovered session with SkipMiddlewares, or the middlewares registered when it
    started were called in registration order, each one after the previous one had called
    next(nil), the last one called next(nil), and the connection came after that. *)
Theorem C17_gate : ∀ (ls : list mlabel) (s : mst) (a : nat), mexec NsMode ls mst0 = Some s → CGo a ∈ m_log s →
  ∃ g skip p3 us, attempts [] ls !! a = Some (g, skip, p3, us) ∧ (skip = true ∨ passing a 0 us ++ [CGo a] `sublist_of` m_log s).
Proof. exact ns_gate. Qed.
Print Assumptions C17_gate.

(** If no middleware calls next twice, the conversation with the middlewares is exactly the
    sequential one, nothing is called after an error, and the outcome is unique: connected once;
    or cleaned up and refused by one CONNECT_ERROR packet with the error; or, only if the
    connection was closed, cleaned up. *)
Theorem C17_once : ∀ (ls : list mlabel) (s : mst) (a g : nat) (p3 : bool) (us : list nat),
  mexec NsMode ls mst0 = Some s → one_answer ls a → attempts [] ls !! a = Some (g, false, p3, us) →
  mw_part a (m_log s) = conversation a 0 us (answers ls a) ∧
  match verdict_of us (answers ls a) with
  | VWait => outcome a (m_log s) = []
  | VPass => outcome a (m_log s) = [CGo a] ∨ (outcome a (m_log s) = [CClean a] ∧ ¬ stays_open ls g) ∨ (outcome a (m_log s) = [] ∧ ¬ settled s a)
  | VFail e => outcome a (m_log s) = [CClean a; CErrPkt a (refusal p3 e)] ∨ (outcome a (m_log s) = [CClean a] ∧ (settled s a → ¬ stays_open ls g)) ∨
               (outcome a (m_log s) = [] ∧ ¬ settled s a)
  end.
Proof. exact ns_once. Qed.
Print Assumptions C17_once.

(** A connection whose transport closed before it started is never completed. *)
Theorem C17_closed : ∀ (ls1 ls2 : list mlabel) (s : mst) (a g : nat) (skip p3 : bool) (us : list nat),
  mexec NsMode (ls1 ++ ls2) mst0 = Some s → MClose g ∈ ls1 → length (attempts [] ls1) ≤ a →
  attempts [] (ls1 ++ ls2) !! a = Some (g, skip, p3, us) → CGo a ∉ m_log s.
Proof. exact (closed_gate NsMode). Qed.
Print Assumptions C17_closed.
(** The second attempt of the connection 0 starts after it was closed; both pass the middleware. *)
Example C17_closed_example : let ls1 := [MUse 7; MStart 0 false false; MClose 0] in
  let ls2 := [MStart 0 false false; MNext 1 0 None; MNext 0 0 None; MTask 1 0; MTask 0 0] in
  ∃ s, mexec NsMode (ls1 ++ ls2) mst0 = Some s ∧ MClose 0 ∈ ls1 ∧ length (attempts [] ls1) = 1 ∧
    attempts [] (ls1 ++ ls2) !! 1 = Some (0, false, false, [7]) ∧ outcome 1 (m_log s) = [CClean 1].
Proof. cbv zeta. eexists. split; [vm_compute; reflexivity|]. split; [by right; right; left|]. split_and!; vm_compute; reflexivity. Qed.

(** "An error stops the chain" needs the middleware to call next once: a middleware that forgets
    to return after next(err) has its connection refused and accepted. *)
Definition sched_twice : list mlabel :=
  [MUse 7; MStart 0 false false; MNext 0 0 (Some (MErr "unauthorized" VNil)); MNext 0 0 None;
   MTask 0 0; MTask 0 0; MTask 0 1; MTask 0 1].
Theorem C17_next_twice_refuted : ∃ ls s, mexec NsMode ls mst0 = Some s ∧
  outcome 0 (m_log s) = [CClean 0; CErrPkt 0 (VMap [("message", VStr "unauthorized"); ("data", VNil)]); CGo 0].
Proof. exists sched_twice. eexists. split; [vm_compute; reflexivity|reflexivity]. Qed.
Print Assumptions C17_next_twice_refuted.

(** Two connections through two middlewares, interleaved: one accepted, one refused. *)
Definition sched_ns : list mlabel :=
  [MUse 7; MUse 8; MStart 0 false false; MStart 1 false true; MNext 1 0 None; MNext 0 0 None; MUse 9;
   MNext 1 1 (Some (MErr "no" (VNum 3))); MNext 0 1 None; MTask 0 0; MTask 1 0; MTask 1 0; MTask 0 0].
Example C17_example : ∃ s, mexec NsMode sched_ns mst0 = Some s ∧
  outcome 0 (m_log s) = [CGo 0] ∧ outcome 1 (m_log s) = [CClean 1; CErrPkt 1 (VNum 3)] ∧
  one_answer sched_ns 0 ∧ one_answer sched_ns 1 ∧ attempts [] sched_ns !! 1 = Some (1, false, true, [7; 8]).
Proof. eexists. split; [vm_compute; reflexivity|]. split_and!; try reflexivity; by_eval. Qed.

(** ** C18 Socket middlewares gate every incoming event *)
Theorem C18_gate : ∀ (ls : list mlabel) (s : mst) (a : nat), mexec EvMode ls mst0 = Some s → CGo a ∈ m_log s →
  ∃ g skip p3 us, attempts [] ls !! a = Some (g, skip, p3, us) ∧ passing a 0 us ++ [CGo a] `sublist_of` m_log s.
Proof. exact ev_gate. Qed.
Print Assumptions C18_gate.

(** If no middleware calls next twice: an event is dispatched once when every middleware passed it,
    reported once on the error event when one rejected it (and not dispatched), dropped only if the
    socket was disconnected. *)
Theorem C18_once : ∀ (ls : list mlabel) (s : mst) (a g : nat) (skip p3 : bool) (us : list nat),
  mexec EvMode ls mst0 = Some s → one_answer ls a → attempts [] ls !! a = Some (g, skip, p3, us) →
  mw_part a (m_log s) = conversation a 0 us (answers ls a) ∧
  match verdict_of us (answers ls a) with
  | VWait => outcome a (m_log s) = []
  | VPass => outcome a (m_log s) = [CGo a] ∨ (outcome a (m_log s) = [CDrop a] ∧ ¬ stays_open ls g) ∨ (outcome a (m_log s) = [] ∧ ¬ settled s a)
  | VFail e => outcome a (m_log s) = [CErrEv a e] ∨ (outcome a (m_log s) = [] ∧ ¬ settled s a)
  end.
Proof. exact ev_once. Qed.
Print Assumptions C18_once.

(** An event received after the disconnection is never dispatched. *)
Theorem C18_closed : ∀ (ls1 ls2 : list mlabel) (s : mst) (a g : nat) (skip p3 : bool) (us : list nat),
  mexec EvMode (ls1 ++ ls2) mst0 = Some s → MClose g ∈ ls1 → length (attempts [] ls1) ≤ a →
  attempts [] (ls1 ++ ls2) !! a = Some (g, skip, p3, us) → CGo a ∉ m_log s.
Proof. exact (closed_gate EvMode). Qed.
Print Assumptions C18_closed.
Example C18_closed_example : let ls1 := [MUse 1; MStart 0 false false; MClose 0] in
  let ls2 := [MStart 0 false false; MNext 1 0 None; MTask 1 0] in
  ∃ s, mexec EvMode (ls1 ++ ls2) mst0 = Some s ∧ MClose 0 ∈ ls1 ∧ length (attempts [] ls1) = 1 ∧
    attempts [] (ls1 ++ ls2) !! 1 = Some (0, false, false, [1]) ∧ outcome 1 (m_log s) = [CDrop 1].
Proof. cbv zeta. eexists. split; [vm_compute; reflexivity|]. split; [by right; right; left|]. split_and!; vm_compute; reflexivity. Qed.

(** The catch-all listeners are not behind the gate: they see every event received exactly once,
    whatever the middlewares say and even after disconnection. *)
Theorem C18_catch_all_not_gated : ∀ (ls : list mlabel) (s : mst) (a : nat), mexec EvMode ls mst0 = Some s →
  filter (is_any a) (m_log s) = if decide (a < length (attempts [] ls)) then [CAny a] else [].
Proof. exact any_once. Qed.
Print Assumptions C18_catch_all_not_gated.

(** An event accepted before the disconnection may be handled after it (the test and the dispatch
    are two steps). *)
Definition sched_late : list mlabel := [MStart 0 false false; MTask 0 0; MClose 0; MTask 0 0].
Theorem C18_handler_after_disconnect_refuted : ∃ ls s1 s2, mexec EvMode (ls ++ [MClose 0]) mst0 = Some s1 ∧
  mexec EvMode [MTask 0 0] s1 = Some s2 ∧ CGo 0 ∉ m_log s1 ∧ CGo 0 ∈ m_log s2.
Proof.
  exists [MStart 0 false false; MTask 0 0]. eexists _, _. split; [vm_compute; reflexivity|]. split; [vm_compute; reflexivity|].
  split; cbn [m_log]; rewrite ?elem_of_cons, elem_of_nil; naive_solver.
Qed.
Print Assumptions C18_handler_after_disconnect_refuted.

Definition sched_ev : list mlabel :=
  [MUse 1; MStart 0 false false; MUse 2; MStart 0 false false; MNext 1 0 None; MNext 0 0 None; MNext 1 1 (Some (MErr "bad" VNil));
   MTask 0 0; MTask 1 0; MTask 0 0; MClose 0; MStart 0 false false; MNext 2 0 None; MNext 2 1 None; MTask 2 0].
Example C18_example : ∃ s, mexec EvMode sched_ev mst0 = Some s ∧
  outcome 0 (m_log s) = [CGo 0] ∧ outcome 1 (m_log s) = [CErrEv 1 (MErr "bad" VNil)] ∧ outcome 2 (m_log s) = [CDrop 2] ∧
  one_answer sched_ev 1.
Proof. eexists. split; [vm_compute; reflexivity|]. split_and!; try reflexivity; by_eval. Qed.
