(** Properties C06-C09: broadcast operators and modifiers. *)
From Verif Require Import Base GoTypes Rooms RoomsSpec RoomsProofs Adapter AdapterSpec AdapterProofs PropsRooms
  Operator OperatorSpec OperatorProofs OperatorProofs2.

(** ** C06 Sender exclusion
    Any chain [ms] of modifiers on [socket.Broadcast()] (socket.To/In/Except/Local are
    such chains), used in any namespace state [n], after any history [cs] of calls.
    The emission reaches exactly the listed sockets in a target room, in no excluded room and
    not in the room named by the sender's id; so never the sender while it is in its own room,
    and every other member unless it joined the sender's own room. *)
Theorem C06_sender_exclusion_partial : ∀ (P : Type) (cs : list call) (k : nat) (s : osock) (ms : list modif)
    (ev : string) (args : list value) (n : nspace P) (p : P) (o : orders),
  w_socks (run_calls cs world0) !! k = Some s → ev ∉ reserved → orders_ok o → ns_wf n →
  ∃ b e opts new, w_ops (run_calls (cs ++ [CFromSocket k]) world0) = w_ops (run_calls cs world0) ++ [b] ∧
    (let '(b', h') := run_chain ms b (w_heap (run_calls (cs ++ [CFromSocket k]) world0)) in op_emit ev args b' h') = Some e ∧
    emission_opts e = Some opts ∧
    ns_written (broadcast p o (Some opts) n) = ns_written n ++ new ∧
    (in_room n (os_id s) (os_id s) → ¬ ∃ q, (os_id s, q) ∈ new) ∧
    (∀ id, (id, p) ∈ new ↔ listed n id ∧
       ((∀ m, m ∈ ms → targets_of m = []) ∨ ∃ m r, m ∈ ms ∧ r ∈ targets_of m ∧ in_room n id r) ∧
       ¬ in_room n id (os_id s) ∧ ∀ m r, m ∈ ms → r ∈ excludes_of m → ¬ in_room n id r).
Proof. exact @sender_exclusion. Qed.
Print Assumptions C06_sender_exclusion_partial.

(** Missing in the statement above, and false of the code: exclusion of a sender that left the
    room named by its own id (the exclusion is a room exclusion, socket/socket.go:1014). *)
Definition ex_left_own : nspace string :=
  NSpace (run_ops true [OpJoin "a" ["a"; "x"]; OpJoin "b" ["b"; "x"]; OpLeave "a" "a"]).1
    {["a" := ASock "a" true; "b" := ASock "b" true]} [] [].
Lemma ex_left_own_wf : ns_wf ex_left_own.
Proof.
  destruct (run_ops_inv true [OpJoin "a" ["a"; "x"]; OpJoin "b" ["b"; "x"]; OpLeave "a" "a"]) as [H1 H2].
  { repeat constructor. }
  split; [exact H1|]. split; [exact H2|]. split.
  - intros id a. unfold ex_left_own; simpl. rewrite lookup_insert_Some, lookup_singleton_Some. naive_solver.
  - intros id [a Ha]. revert Ha. unfold ex_left_own; cbn [ns_sockets]. rewrite lookup_insert_Some, lookup_singleton_Some.
    intros [[<- _]|[_ [<- _]]]; vm_compute; eauto.
Qed.
Definition ex_sender_calls : list call := [CSocket 0 "a" 0; CFromSocket 0; CModif 0 (MTo ["x"])].
Definition written_by {P} (e : option emission) (p : P) (o : orders) (n : nspace P) : list (sid * P) :=
  match e ≫= emission_opts with Some opts => ns_written (broadcast p o (Some opts) n) | None => [] end.
Theorem C06_sender_left_own_room_refuted : ∃ (n : nspace string) (cs : list call) (i : nat) (s : osock),
  ns_wf n ∧ w_socks (run_calls cs world0) !! 0 = Some s ∧ listed n (os_id s) ∧
  (os_id s, "p") ∈ written_by (run_call (COpEmit i "ev" []) (run_calls cs world0)).2 "p" orders_std n.
Proof.
  exists ex_left_own, ex_sender_calls, 1, (OSock "a" 0 1).
  split; [exact ex_left_own_wf|]. split; [by_eval|]. split; [vm_compute; eauto|by_eval].
Qed.
Print Assumptions C06_sender_left_own_room_refuted.

(** Another member of the target room is missed when it joined the room named by the sender's id. *)
Definition ex_joined_private : nspace string :=
  NSpace (run_ops true [OpJoin "a" ["a"; "x"]; OpJoin "b" ["b"; "x"]; OpJoin "b" ["a"]]).1
    {["a" := ASock "a" true; "b" := ASock "b" true]} [] [].
Lemma ex_joined_private_wf : ns_wf ex_joined_private.
Proof.
  destruct (run_ops_inv true [OpJoin "a" ["a"; "x"]; OpJoin "b" ["b"; "x"]; OpJoin "b" ["a"]]) as [H1 H2].
  { repeat constructor. }
  split; [exact H1|]. split; [exact H2|]. split.
  - intros id a. unfold ex_joined_private; simpl. rewrite lookup_insert_Some, lookup_singleton_Some. naive_solver.
  - intros id [a Ha]. revert Ha. unfold ex_joined_private; cbn [ns_sockets]. rewrite lookup_insert_Some, lookup_singleton_Some.
    intros [[<- _]|[_ [<- _]]]; vm_compute; eauto.
Qed.
Theorem C06_other_member_missed_refuted : ∃ (n : nspace string) (cs : list call) (i : nat) (s : osock),
  ns_wf n ∧ w_socks (run_calls cs world0) !! 0 = Some s ∧ listed n "b" ∧ in_room n "b" "x" ∧ os_id s ≠ "b" ∧
  (∃ b t, w_ops (run_calls cs world0) !! i = Some b ∧ denote (w_heap (run_calls cs world0)) b = Some t ∧ "x" ∈ t_rooms t) ∧
  ("b", "p") ∉ written_by (run_call (COpEmit i "ev" []) (run_calls cs world0)).2 "p" orders_std n.
Proof.
  exists ex_joined_private, ex_sender_calls, 1, (OSock "a" 0 1).
  split; [exact ex_joined_private_wf|]. split; [by_eval|]. split; [vm_compute; eauto|].
  split; [unfold in_room; by_eval|]. split; [done|]. split; [|by_eval].
  exists (Operator 0 8 3 4), (Target 0 {["x"]} {["a"]} no_flags). split; [by_eval|]. split; by_eval.
Qed.
Print Assumptions C06_other_member_missed_refuted.

Example C06_example :
  w_socks (run_calls [CSocket 0 "a" 0] world0) !! 0 = Some (OSock "a" 0 0) ∧ ns_wf ex_ns ∧ in_room ex_ns "a" "a" ∧
  written_by (run_call (COpEmit 2 "ev" []) (run_calls (ex_sender_calls ++ [CModif 1 (MIn ["z"])]) world0)).2 "p" orders_rev ex_ns
    ≡ₚ [("b", "p"); ("c", "p")].
Proof. split; [by_eval|]. split; [apply ex_ns_wf|]. split; [unfold in_room; by_eval|]. by_eval. Qed.

(** ** C07 Broadcast operators are persistent values *)
(** Whatever is called later (on operators, sockets, namespaces), an operator keeps its meaning. *)
Theorem C07_operators_persistent : ∀ (cs1 cs2 : list call) (i : nat) (b : operator),
  w_ops (run_calls cs1 world0) !! i = Some b →
  let w1 := run_calls cs1 world0 in let w2 := run_calls (cs1 ++ cs2) world0 in
  w_ops w2 !! i = Some b ∧ ∃ t, denote (w_heap w1) b = Some t ∧ denote (w_heap w2) b = Some t.
Proof. exact operators_persistent. Qed.
Print Assumptions C07_operators_persistent.

(** The target of a chain of calls. *)
Theorem C07_chain_target : ∀ (cs : list call) (i : nat) (b : operator) (ms : list modif),
  w_ops (run_calls cs world0) !! i = Some b →
  let w := run_calls cs world0 in
  ∃ t t', denote (w_heap w) b = Some t ∧
    denote (run_chain ms b (w_heap w)).2 (run_chain ms b (w_heap w)).1 = Some t' ∧ chain_target ms t t'.
Proof. exact chain_law. Qed.
Print Assumptions C07_chain_target.

(** Order independence: permuting the calls of a chain changes nothing, as long as the last
    Compress and the last Timeout are the same. *)
Theorem C07_chain_order_independent : ∀ (cs : list call) (i : nat) (b : operator) (ms ms' : list modif),
  w_ops (run_calls cs world0) !! i = Some b → ms ≡ₚ ms' →
  last (omap compress_of ms) = last (omap compress_of ms') → last (omap timeout_of ms) = last (omap timeout_of ms') →
  let h := w_heap (run_calls cs world0) in
  ∃ t, denote (run_chain ms b h).2 (run_chain ms b h).1 = Some t ∧ denote (run_chain ms' b h).2 (run_chain ms' b h).1 = Some t.
Proof. exact chain_permuted. Qed.
Print Assumptions C07_chain_order_independent.

(** An operator emits to what it denotes. *)
Theorem C07_emits_to_target : ∀ (cs : list call) (i : nat) (b : operator) (t : target) (ev : string) (args : list value),
  w_ops (run_calls cs world0) !! i = Some b → denote (w_heap (run_calls cs world0)) b = Some t → ev ∉ reserved →
  ∃ e, (run_call (COpEmit i ev args) (run_calls cs world0)).2 = Some e ∧ emission_target e = Some t.
Proof. exact operator_emits_target. Qed.
Print Assumptions C07_emits_to_target.

Definition ex_chain_calls : list call :=
  [CNsp 7; CModif 0 (MTo ["x"]); CModif 1 (MCompress true); CSocket 0 "a" 7; CSockFlag 0 MVolatile; CFromSocket 0;
   CModif 2 (MExcept ["y"]); CModif 1 (MTimeout 5); CSockFlag 0 (MCompress true); CModif 2 (MTo ["z"])].
Example C07_example :
  (λ b, denote (w_heap (run_calls ex_chain_calls world0)) b) <$> w_ops (run_calls ex_chain_calls world0) =
  [Some (Target 7 ∅ ∅ no_flags); Some (Target 7 {["x"]} ∅ no_flags); Some (Target 7 {["x"]} ∅ (set_compress true no_flags));
   Some (Target 7 ∅ {["a"]} (set_volatile no_flags)); Some (Target 7 {["x"]} {["y"]} (set_compress true no_flags));
   Some (Target 7 {["x"]} ∅ (set_timeout 5 no_flags)); Some (Target 7 {["x"; "z"]} ∅ (set_compress true no_flags))].
Proof. by_eval. Qed.

(** ** C08 Reserved event names are rejected without effect ([None]: an error is returned) *)
Theorem C08_reserved_rejected :
  (∀ ev args b h, op_emit ev args b h = None ↔ ev ∈ reserved) ∧
  (∀ csr i ev args s h, sock_emit csr i ev args s h = None ↔ ev ∈ reserved) ∧
  (∀ ad ev args, nsp_server_side_emit ad ev args = None ↔ ev ∈ reserved_nsp).
Proof. exact (conj op_emit_reserved (conj sock_emit_reserved server_side_reserved)). Qed.
Print Assumptions C08_reserved_rejected.

Theorem C08_no_effect : ∀ k i ev args w csr n, ev ∈ reserved →
  run_call (CSockEmit k csr n ev args) w = (w, None) ∧ run_call (COpEmit i ev args) w = (w, None).
Proof. exact reserved_no_effect. Qed.
Print Assumptions C08_no_effect.
Example C08_example : "disconnecting" ∈ reserved ∧ "message" ∉ reserved ∧ "connection" ∉ reserved ∧
  "connection" ∈ reserved_nsp.
Proof. by_eval. Qed.

(** ** C09 Modifiers apply to the next emission only
    A socket is created at some point of a history; after any further calls [cs] (on this and other
    sockets, operators, namespaces), its next emission and the next operator made from it
    carry exactly the modifiers called on it since its last accepted emission or operator. *)
Theorem C09_next_emission : ∀ cs0 k id ad cs csr i ev args,
  w_socks (run_calls cs0 world0) !! k = None → ev ∉ reserved →
  ∃ e f, (run_call (CSockEmit k csr i ev args) (run_calls (cs0 ++ CSocket k id ad :: cs) world0)).2 = Some e ∧
    emission_flags e = Some f ∧ flags_law (pending k cs []) f.
Proof. exact socket_modifiers_next_emission. Qed.
Print Assumptions C09_next_emission.
(** The callback of the next emission is registered with the last timeout given since the previous one. *)
Theorem C09_next_timeout : ∀ cs0 k id ad cs csr i ev args n,
  w_socks (run_calls cs0 world0) !! k = None → ev ∉ reserved →
  let w := run_calls (cs0 ++ CSocket k id ad :: cs) world0 in
  ∃ s e s' h', w_socks w !! k = Some s ∧
    sock_emit csr i ev (args ++ [VAck n]) s (w_heap w) = Some (e, Some (i, n, last (omap timeout_of (pending k cs []))), s', h').
Proof. exact next_emission_ack. Qed.
Print Assumptions C09_next_timeout.
Example C09_timeout_example : last (omap timeout_of (pending 0 [CSockFlag 0 (MTimeout 5); CSockEmit 0 false 1 "a" []; CSockFlag 0 (MTimeout 7); CSockFlag 0 (MTimeout 9)] [])) = Some 9%N.
Proof. by vm_compute. Qed.
Theorem C09_next_operator : ∀ cs0 k id ad cs,
  w_socks (run_calls cs0 world0) !! k = None →
  let w := run_calls (cs0 ++ CSocket k id ad :: cs) world0 in
  let w' := (run_call (CFromSocket k) w).1 in
  ∃ b t, w_ops w' = w_ops w ++ [b] ∧ denote (w_heap w') b = Some t ∧ flags_law (pending k cs []) (t_flags t).
Proof. exact socket_modifiers_next_operator. Qed.
Print Assumptions C09_next_operator.

(** A rejected emission does not forget the modifiers: Volatile().Emit("disconnect") leaves
    Volatile set for the next emission. *)
Theorem C09_rejected_emission_refuted : ∃ cs ev f,
  (run_call (CSockEmit 0 false 1 "disconnect" []) (run_calls cs world0)).2 = None ∧
  (run_call (CSockEmit 0 false 1 ev []) (run_calls (cs ++ [CSockEmit 0 false 1 "disconnect" []]) world0)).2
    = Some (EPacket "a" [VStr ev] None f) ∧ fl_volatile f = true.
Proof.
  exists [CSocket 0 "a" 0; CSockFlag 0 MVolatile], "ev", (set_volatile no_flags).
  split; [by vm_compute|]. split; [by vm_compute|done].
Qed.
Print Assumptions C09_rejected_emission_refuted.
Example C09_example : pending 0 [CSockFlag 0 MVolatile; CSockEmit 0 false 1 "a" []; CSockFlag 1 MVolatile; CSockFlag 0 (MCompress true)] []
  = [MCompress true].
Proof. by vm_compute. Qed.
