(** Properties C10, C11: acknowledgements of emissions. *)
From Verif Require Import Base GoTypes Acks AcksSpec AcksProofs AcksSerial.

(** ** C10 An acknowledgement callback is called at most once, and exactly once with a timeout
    Handlers that do not overlap (every order of emissions, replies - duplicated, late, forged,
    unknown - and timer expiries): the calls of the callback of an emission are exactly its
    first answer.  [cb] is the rank of the emission, [id] the packet id it was sent with. *)
Theorem C10_answered_once_partial : ∀ (pre post : list aevent) (k : nat * nat) (tmo : bool),
  let es := pre ++ EvEmit k tmo :: post in
  let cb := n_emits pre in
  let id := N.of_nat (S (n_emits_on k.1 pre)) in
  (N.of_nat (n_emits es) < 2 ^ 64)%N →
  (∃ em, a_ems (aserial es ast0) !! cb = Some em ∧ em_id em = id ∧ em_socks em = [k]) ∧
  calls_of cb (aserial es ast0) =
    match first_answer k id cb tmo post with Some r => [ACall cb k id r] | None => [] end ∧
  (tmo = true → (first_answer k id cb tmo post = None ↔ cb ∈ a_armed (aserial es ast0))).
Proof. exact serial_c10. Qed.
Print Assumptions C10_answered_once_partial.

(** All schedules of the goroutines: at most one call per reply received, at most one timeout
    call, none without a timeout. *)
Theorem C10_calls_bounded : ∀ (ls : list alabel) (s : ast) (cb : nat) (k : nat * nat) (id : N) (tmo : bool) (n : nat),
  aexec ls ast0 = Some s → a_ems s !! cb = Some (AEmission n id [k] tmo) →
  length (calls_of cb s) ≤ n_recv k id ls + (if tmo then 1 else 0) ∧
  length (filter (λ c, c_res c = None) (calls_of cb s)) ≤ if tmo then 1 else 0.
Proof. exact calls_bound. Qed.
Print Assumptions C10_calls_bounded.

(** All schedules: once nothing is running any more, an emission with a timeout has been answered. *)
Theorem C10_timeout_answered : ∀ (ls : list alabel) (s : ast) (cb : nat) (em : aemission) (k : nat * nat),
  aexec ls ast0 = Some s → quiet s → a_ems s !! cb = Some em → em_socks em = [k] → em_timeout em = true →
  1 ≤ length (calls_of cb s).
Proof. exact timed_called. Qed.
Print Assumptions C10_timeout_answered.

(** What the schedules above do not exclude does happen.
    (1) A duplicated reply: both handlers load the callback before either deletes it
    (socket/socket.go:587-590). *)
Definition sched_duplicate : list alabel :=
  [LEmit (0, 0) false; LRun 0; LRecv (0, 0) (Some 1%N) [VStr "a"]; LRecv (0, 0) (Some 1%N) [VStr "b"];
   LRun 1; LRun 2; LRun 1; LRun 2; LRun 1; LRun 2].
Theorem C10_duplicate_reply_refuted : ∃ (ls : list alabel) (s : ast),
  aexec ls ast0 = Some s ∧ quiet s ∧ n_recv (0, 0) 1 ls = 2 ∧
  calls_of 0 s = [ACall 0 (0, 0) 1 (Some [VStr "a"]); ACall 0 (0, 0) 1 (Some [VStr "b"])].
Proof. exists sched_duplicate. eexists. split; [vm_compute; reflexivity|]. split; [by apply quiet_b_sound|]. split; by vm_compute. Qed.
Print Assumptions C10_duplicate_reply_refuted.

(** (2) A single reply and the timer: the timer expires after the reply's handler has loaded
    the callback and before it clears the timer (socket/socket.go:352-359, 587-589). *)
Definition sched_timer_race : list alabel :=
  [LEmit (0, 0) true; LRun 0; LRun 0; LRecv (0, 0) (Some 1%N) [VStr "a"]; LRun 1; LExpire 0; LRun 1; LRun 1; LRun 1; LRun 2; LRun 2].
Theorem C10_reply_and_timeout_refuted : ∃ (ls : list alabel) (s : ast),
  aexec ls ast0 = Some s ∧ quiet s ∧ n_recv (0, 0) 1 ls = 1 ∧
  calls_of 0 s = [ACall 0 (0, 0) 1 (Some [VStr "a"]); ACall 0 (0, 0) 1 None].
Proof. exists sched_timer_race. eexists. split; [vm_compute; reflexivity|]. split; [by apply quiet_b_sound|]. split; by vm_compute. Qed.
Print Assumptions C10_reply_and_timeout_refuted.

(** (3) A timer that expires before the callback is stored (socket/socket.go:352, 357): its
    Delete comes first, the stored callback stays, and a later reply calls it again. *)
Definition sched_early_timer : list alabel :=
  [LEmit (0, 0) true; LRun 0; LExpire 0; LRun 1; LRun 1; LRun 0; LRecv (0, 0) (Some 1%N) [VStr "a"]; LRun 2; LRun 2; LRun 2; LRun 2].
Theorem C10_early_timer_refuted : ∃ (ls : list alabel) (s : ast),
  aexec ls ast0 = Some s ∧ quiet s ∧ n_recv (0, 0) 1 ls = 1 ∧
  calls_of 0 s = [ACall 0 (0, 0) 1 None; ACall 0 (0, 0) 1 (Some [VStr "a"])].
Proof. exists sched_early_timer. eexists. split; [vm_compute; reflexivity|]. split; [by apply quiet_b_sound|]. split; by vm_compute. Qed.
Print Assumptions C10_early_timer_refuted.

(** Two emissions of two sockets of namespace 3, the first with a timeout; replies in the other
    order, a duplicate, a forged id, a late expiry. *)
Definition ex_acks : list aevent :=
  [EvEmit (3, 0) true; EvEmit (3, 1) false; EvRecv (3, 1) (Some 1%N) [VStr "forged"]; EvRecv (3, 1) (Some 2%N) [VStr "b"];
   EvRecv (3, 1) (Some 2%N) [VStr "again"]; EvRecv (3, 0) (Some 1%N) [VStr "a"]; EvExpire 0; EvRecv (3, 0) None []].
Example C10_example :
  (N.of_nat (n_emits ex_acks) < 2 ^ 64)%N ∧ n_emits ex_acks = 2 ∧
  first_answer (3, 0) 1 0 true (drop 1 ex_acks) = Some (Some [VStr "a"]) ∧
  calls_of 0 (aserial ex_acks ast0) = [ACall 0 (3, 0) 1 (Some [VStr "a"])] ∧
  calls_of 1 (aserial ex_acks ast0) = [ACall 1 (3, 1) 2 (Some [VStr "b"])].
Proof. split; [done|]. split; [done|]. split; [done|]. split; by vm_compute. Qed.
Example C10_bounded_example : ∃ s, aexec sched_timer_race ast0 = Some s ∧ a_ems s !! 0 = Some (AEmission 0 1 [(0, 0)] true) ∧ quiet s.
Proof. eexists. split; [vm_compute; reflexivity|]. split; [done|]. by apply quiet_b_sound. Qed.

(** ** C11 Acknowledgements are routed by socket and id
    Every call of a callback, in every schedule: it belongs to the emission that was made on
    that socket with that packet id, to no other, and passes the arguments of a reply received
    on that socket with that id (or the timeout error of an emission with a timeout). *)
Theorem C11_routing : ∀ (ls : list alabel) (s : ast) (c : acall),
  aexec ls ast0 = Some s → (N.of_nat (length (omap label_emission ls)) < 2 ^ 64)%N → c ∈ a_calls s →
  (∃ em, a_ems s !! c_cb c = Some em ∧ em_id em = c_id c ∧ c_sock c ∈ em_socks em ∧
     match c_res c with Some args => LRecv (c_sock c) (Some (c_id c)) args ∈ ls | None => em_timeout em = true end) ∧
  (∀ cb em, a_ems s !! cb = Some em → em_id em = c_id c → c_sock c ∈ em_socks em → cb = c_cb c).
Proof. exact routing_labels. Qed.
Print Assumptions C11_routing.

(** The emissions of the state are those of the schedule; their ids are distinct within a namespace. *)
Theorem C11_ids_distinct : ∀ (ls : list alabel) (s : ast),
  aexec ls ast0 = Some s → (N.of_nat (length (omap label_emission ls)) < 2 ^ 64)%N →
  emission_desc <$> a_ems s = omap label_emission ls ∧
  ∀ i j ei ej, a_ems s !! i = Some ei → a_ems s !! j = Some ej → em_nsp ei = em_nsp ej → em_id ei = em_id ej → i = j.
Proof. exact ids_distinct_labels. Qed.
Print Assumptions C11_ids_distinct.

(** A reply that no emission on that socket is waiting for calls nothing and changes no table. *)
Theorem C11_unknown_ignored : ∀ (es : list aevent) (k : nat * nat) (oid : option N) (args : list value),
  let s := aserial es ast0 in
  (∀ id cb, oid = Some id → a_acks s !! (k, id) ≠ Some cb) →
  let s' := aserial (es ++ [EvRecv k oid args]) ast0 in
  a_calls s' = a_calls s ∧ a_acks s' = a_acks s ∧ a_armed s' = a_armed s ∧ a_ems s' = a_ems s.
Proof. exact unknown_ignored. Qed.
Print Assumptions C11_unknown_ignored.

(** A broadcast to two sockets of namespace 3 and an emission; replies interleaved. *)
Definition sched_routing : list alabel :=
  [LBroadcast 3 [0; 1]; LEmit (3, 1) false; LRun 1; LRun 0; LRun 0; LRecv (3, 1) (Some 2%N) [VStr "e"]; LRecv (3, 1) (Some 1%N) [VStr "b"];
   LRecv (3, 0) (Some 2%N) [VStr "unknown"]; LRun 4; LRun 3; LRun 2; LRun 2; LRun 3; LRun 3; LRun 2].
Example C11_example : ∃ s, aexec sched_routing ast0 = Some s ∧ (N.of_nat (length (omap label_emission sched_routing)) < 2 ^ 64)%N ∧
  a_calls s = [ACall 1 (3, 1) 2 (Some [VStr "e"]); ACall 0 (3, 1) 1 (Some [VStr "b"])].
Proof. eexists. split; [vm_compute; reflexivity|]. split; [done|]. by vm_compute. Qed.
Example C11_unknown_example :
  (∀ id cb, Some 7%N = Some id → a_acks (aserial ex_acks ast0) !! ((3, 0), id) ≠ Some cb) ∧
  length (a_calls (aserial (ex_acks ++ [EvRecv (3, 0) (Some 7%N) []]) ast0)) = 2.
Proof. split; [|by vm_compute]. intros id cb [= <-]. by vm_compute. Qed.
