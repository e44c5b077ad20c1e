(** Properties C27, C28, C29, C33: the store of sessions and packets. *)
From Verif Require Import Base GoTypes Rooms RoomsSpec Adapter AdapterSpec Session SessionSpec SessionProofs SessionLive.

(** ** C27 A session is recovered exactly while it is valid
    After any history of saved sessions, broadcasts, cleanups and reconnections with a clock that
    does not go back, a reconnection at time [now] with private id [pid] and offset [off] finds its
    session if and only if a session was saved for [pid] at most [max] ago and the packet [off] is
    remembered; otherwise the client gets a fresh session (never a crash). *)
Theorem C27_recovered_iff : ∀ (max : Z) (h : list (Z * sop)) (now : Z) (o : order) (pid off : string),
  order_ok o → timed h now → all_proper h →
  let r := (restore o now pid off (srun max h)).2 in
  ((∃ x l, r = RSession x l) ↔ ∃ x t, saved h pid x t ∧ (now ≤ t + max)%Z ∧ remembered max h off) ∧
  ((∃ x l, r = RSession x l) ∨ r = RFresh).
Proof. exact recovered_iff. Qed.
Print Assumptions C27_recovered_iff.

Definition ev (l : list value) (rs ex : gset room) : bcast := Bcast EVENT false l (Some (BOpts (Some rs) (Some ex) None)).
Definition sess (rs : gset room) : session := Session "sid1" "pid1" rs (VNum 5).
Definition hist : list (Z * sop) :=
  [(10, SBcast "p1" (ev [VStr "a"] ∅ ∅)); (15, SPersist (sess {["sid1"; "r"]})); (20, SBcast "p2" (ev [VStr "b"] {["r"]} ∅));
   (30, SBcast "p3" (ev [VStr "c"] {["q"]} ∅)); (40, SCleanup); (50, SBcast "p4" (ev [VStr "d"] ∅ {["r"]}));
   (60, SBcast "p5" (ev [VStr "e"] ∅ ∅))]%Z.
Example C27_example : timed hist 70 ∧ all_proper hist ∧ saved hist "pid1" (sess {["sid1"; "r"]}) 15 ∧ remembered 100 hist "p1" ∧
  (restore ord_std 70 "pid1" "p1" (srun 100 hist)).2 = RSession (sess {["sid1"; "r"]}) [[VStr "b"; VStr "p2"]; [VStr "e"; VStr "p5"]] ∧
  (restore ord_std 120 "pid1" "p1" (srun 100 hist)).2 = RFresh.
Proof.
  split_and!.
  - intros h1 t op h2 E. unfold hist in E. repeat (destruct h1 as [|? h1]; [injection E as <- <- <-; split; [lia|]; intros e He; rewrite ?elem_of_cons, elem_of_nil in He; naive_solver lia|injection E as <- E]).
    destruct h1; discriminate E.
  - intros t id b Hin. unfold hist in Hin. rewrite !elem_of_cons, elem_of_nil in Hin. unfold proper. naive_solver.
  - exists [(10, SBcast "p1" (ev [VStr "a"] ∅ ∅))]%Z. eexists. split; [reflexivity|]. split; [done|]. intros t y Hy. rewrite !elem_of_cons, elem_of_nil in Hy. naive_solver.
  - exists []. eexists _, _, _. split; [reflexivity|]. split; [split; [done|]; split; [done|]; intros ?? [= <-] ?; done|].
    intros tc Hc. rewrite !elem_of_cons, elem_of_nil in Hc. naive_solver lia.
  - vm_compute. reflexivity.
  - vm_compute. reflexivity.
Qed.

(** The offset is needed: a client that received nothing for longer than the duration before it was
    disconnected is not recovered, although its session was saved just now. *)
Theorem C27_idle_client_refuted : ∃ (max : Z) (h : list (Z * sop)) (now : Z) (x : session) (t : Z),
  (0 < max)%Z ∧ saved h "pid1" x t ∧ (now - t ≤ 1)%Z ∧ (∃ b, (0%Z, SBcast "p1" b) ∈ h ∧ recoverable b) ∧ timed h now ∧
  (restore ord_std now "pid1" "p1" (srun max h)).2 = RFresh.
Proof.
  exists 100%Z, [(0, SBcast "p1" (ev [VStr "a"] ∅ ∅)); (101, SCleanup); (102, SPersist (sess ∅))]%Z, 103%Z, (sess ∅), 102%Z.
  split; [lia|]. split; [exists [(0, SBcast "p1" (ev [VStr "a"] ∅ ∅)); (101, SCleanup)]%Z, []; split; [done|]; split; [done|]; intros ?? Hx; by apply elem_of_nil in Hx|].
  split; [lia|]. split; [eexists; split; [by left|]; split; [done|]; split; [done|]; intros ?? [= <-] ?; done|]. split; [|vm_compute; reflexivity].
  intros h1 t op h2 E. repeat (destruct h1 as [|? h1]; [injection E as <- <- <-; split; [lia|]; intros e He; rewrite ?elem_of_cons, elem_of_nil in He; naive_solver lia|injection E as <- E]).
  destruct h1; discriminate E.
Qed.
Print Assumptions C27_idle_client_refuted.

(** ** C28 Missed packets are replayed exactly *)
Theorem C28_replay_exact : ∀ (max : Z) (h : list (Z * sop)) (now : Z) (o : order) (pid off : string) (x : session) (l : list (list value)),
  order_ok o → timed h now → all_proper h → ids_distinct h →
  (restore o now pid off (srun max h)).2 = RSession x l →
  (∃ t, saved h pid x t) ∧ (∃ y, y ∈ broadcasts h ∧ y.1.1 = off) ∧
  ∀ b1 y b2, broadcasts h = b1 ++ y :: b2 → y.1.1 = off → l = wire_data <$> filter (λ z, concerns (se_rooms x) z.2) b2.
Proof. exact replay_exact. Qed.
Print Assumptions C28_replay_exact.
Example C28_example : ids_distinct hist ∧ length (broadcasts hist) = 5.
Proof. split; [|reflexivity]. change (NoDup ["p1"; "p2"; "p3"; "p4"; "p5"]). by_eval. Qed.

(** The rule uses the rooms at disconnection: a packet sent to a room before the client joined it is
    replayed (the client was not a target of it). *)
Definition hist_late : list (Z * sop) :=
  [(10, SBcast "p1" (ev [VStr "a"] ∅ ∅)); (11, SBcast "p2" (ev [VStr "secret"] {["r"]} ∅)); (15, SPersist (sess {["sid1"; "r"]}))]%Z.
Example C28_joined_later : (restore ord_std 20 "pid1" "p1" (srun 100 hist_late)).2 = RSession (sess {["sid1"; "r"]}) [[VStr "secret"; VStr "p2"]].
Proof. vm_compute. reflexivity. Qed.

(** ** C29 Periodic cleanup forgets only what has expired *)
Theorem C29_sessions : ∀ (now : Z) (s : store) (pid : string), st_sessions (cleanup now s) !! pid =
  match st_sessions s !! pid with Some (x, t) => if decide (t + st_max s < now)%Z then None else Some (x, t) | None => None end.
Proof. exact cleanup_sessions. Qed.
Print Assumptions C29_sessions.
Theorem C29_packets : ∀ (max : Z) (h : list (Z * sop)) (now : Z), timed h now →
  st_packets (cleanup now (srun max h)) = filter (λ p, ¬ (sp_at p + max < now)%Z) (st_packets (srun max h)).
Proof. exact cleanup_packets. Qed.
Print Assumptions C29_packets.
(** Removing every cleanup from the history does not change the outcome of a reconnection whose
    session and offset are both at most [max] old. *)
Theorem C29_outcome_unchanged : ∀ (max : Z) (h : list (Z * sop)) (now : Z) (o : order) (pid off : string),
  order_ok o → timed h now → all_proper h → ids_distinct h →
  (∃ x t, saved h pid x t ∧ (now ≤ t + max)%Z) → (∃ y, y ∈ broadcasts h ∧ y.1.1 = off ∧ (now ≤ y.1.2 + max)%Z) →
  (restore o now pid off (srun max h)).2 = (restore o now pid off (srun max (no_cleanups h))).2.
Proof. exact cleanup_harmless. Qed.
Print Assumptions C29_outcome_unchanged.
Example C29_example : st_packets (cleanup 125 (srun 100 hist)) = drop 2 (st_packets (srun 100 hist)) ∧ length (st_packets (srun 100 hist)) = 5 ∧
  st_sessions (cleanup 125 (srun 100 hist)) !! "pid1" = None.
Proof. vm_compute. done. Qed.
(** The clock matters: after it went back, packets that have not expired are removed. *)
Theorem C29_clock_back_refuted : ∃ (max now : Z) (h : list (Z * sop)) (p : spacket),
  p ∈ st_packets (srun max h) ∧ (now ≤ sp_at p + max)%Z ∧ p ∉ st_packets (cleanup now (srun max h)).
Proof.
  exists 100%Z, 205%Z, [(200, SBcast "p1" (ev [VStr "a"] ∅ ∅)); (100, SBcast "p2" (ev [VStr "b"] ∅ ∅))]%Z. eexists.
  split; [by left|]. split; [simpl; lia|]. match goal with |- _ ∉ ?l => replace l with (@nil spacket) by (vm_compute; reflexivity) end. by intros ?%elem_of_nil.
Qed.
Print Assumptions C29_clock_back_refuted.

(** ** C33 Replay and live delivery use the same targeting rule *)
Theorem C33_same_rule : ∀ {P} (s : nspace P) (p : P) (id : sid) (os : orders) (o : order) (b : bcast),
  ns_wf s → listed s id → orders_ok os → order_ok o → proper b →
  should_include (o (rooms_of (ns_reg s) id)) (bc_opts b) = Some true ↔
  ∃ new, ns_written (broadcast p os (bc_opts b) s) = ns_written s ++ new ∧ (id, p) ∈ new.
Proof. exact @replay_live. Qed.
Print Assumptions C33_same_rule.
Definition ns_ex : nspace nat := NSpace (add_all "b" ["b"] (add_all "a" ["a"; "r"] empty_registry).1).1 {["a" := ASock "a" true; "b" := ASock "b" true]} [] [].
Example C33_example : should_include (ord_std (rooms_of (ns_reg ns_ex) "a")) (Some (BOpts (Some {["r"]}) (Some {["b"]}) None)) = Some true ∧
  should_include (ord_std (rooms_of (ns_reg ns_ex) "b")) (Some (BOpts (Some {["r"]}) (Some {["b"]}) None)) = Some false ∧
  ns_written (broadcast 7 orders_std (Some (BOpts (Some {["r"]}) (Some {["b"]}) None)) ns_ex) = [("a", 7)].
Proof. vm_compute. done. Qed.
(** Adapter.Broadcast also accepts nil options (the flag test at session-aware-adapter.go:129 caters
    for them): live delivery then reaches every socket, but every later recovery crashes. *)
Theorem C33_nil_options_refuted : ∃ (h : list (Z * sop)) (b : bcast),
  (20%Z, SBcast "p2" b) ∈ h ∧ (restore ord_std 30 "pid1" "p1" (srun 100 h)).2 = RPanic ∧
  ns_written (broadcast 7 orders_std (bc_opts b) ns_ex) = [("b", 7); ("a", 7)].
Proof.
  exists [(10, SBcast "p1" (ev [VStr "a"] ∅ ∅)); (15, SPersist (sess {["sid1"]})); (20, SBcast "p2" (Bcast EVENT false [VStr "b"] None))]%Z, (Bcast EVENT false [VStr "b"] None).
  split; [right; right; by left|]. split; vm_compute; reflexivity.
Qed.
Print Assumptions C33_nil_options_refuted.
