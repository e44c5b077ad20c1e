(** Properties C01-C05: rooms, targeting, bulk operations. *)
From Verif Require Import Base GoTypes Rooms RoomsSpec RoomsProofs Adapter AdapterSpec AdapterProofs AdapterRun AdapterRunSpec AdapterRunProofs.

(** ** C01 Room membership is one relation *)
Theorem C01_membership_relation : ∀ (rep : bool) (h : list room_op), Forall op_ok h →
  let g := (run_ops rep h).1 in
  (∀ id r, r ∈ rooms_of g id ↔ is_member h id r) ∧
  (∀ id r, id ∈ members_of g r ↔ is_member h id r) ∧
  (∀ r, is_Some (rg_rooms g !! r) ↔ ∃ id, is_member h id r) ∧
  (∀ id, is_Some (rg_sids g !! id) ↔ is_known h id).
Proof. exact membership_relation. Qed.
Print Assumptions C01_membership_relation.

Definition ex_history : list room_op :=
  [OpJoin "a" ["a"; "x"; "y"]; OpJoin "b" ["x"; "b"]; OpLeave "a" "y"; OpLeave "b" "z"; OpJoin "c" ["c"; "x"]; OpLeaveAll "b" ord_rev].
Example C01_example : Forall op_ok ex_history ∧ is_member ex_history "a" "x" ∧ ¬ is_member ex_history "b" "x" ∧
  members_of (run_ops true ex_history).1 "x" = {["a"; "c"]}.
Proof.
  split; [repeat constructor; apply ord_rev_ok|]. split.
  { exists [], ["a"; "x"; "y"], [OpJoin "b" ["x"; "b"]; OpLeave "a" "y"; OpLeave "b" "z"; OpJoin "c" ["c"; "x"]; OpLeaveAll "b" ord_rev].
    split; [done|]. split; [set_solver|]. repeat constructor; simpl; naive_solver. }
  split; [|by_eval].
  destruct (membership_relation true ex_history) as (_ & H & _). { repeat constructor; apply ord_rev_ok. }
  rewrite <- H. vm_compute. by intros ?.
Qed.

(** ** C02 Room lifecycle events replay to the membership
    [true]: [types.Set.Delete] reports whether the key was present. *)
Theorem C02_events_replay : ∀ h : list room_op, Forall op_ok h →
  replay ∅ (run_ops true h).2 = Some (rg_rooms (run_ops true h).1).
Proof. exact run_ops_replay. Qed.
Print Assumptions C02_events_replay.

(** If [types.Set.Delete] always returned true, the claim would be false: leaving a
    room one is not in emits a leave-room event. *)
Theorem C02_events_replay_needs_delete_result_refuted : ∃ h : list room_op, Forall op_ok h ∧
  replay ∅ (run_ops false h).2 = None.
Proof. exists [OpJoin "a" ["x"]; OpLeave "b" "x"]. split; [repeat constructor|by_eval]. Qed.
Print Assumptions C02_events_replay_needs_delete_result_refuted.

Example C02_example : (run_ops true ex_history).2 =
  [CreateRoom "a"; JoinRoom "a" "a"; CreateRoom "x"; JoinRoom "x" "a"; CreateRoom "y"; JoinRoom "y" "a";
   JoinRoom "x" "b"; CreateRoom "b"; JoinRoom "b" "b"; LeaveRoom "y" "a"; DeleteRoom "y";
   CreateRoom "c"; JoinRoom "c" "c"; JoinRoom "x" "c"; LeaveRoom "b" "b"; DeleteRoom "b"; LeaveRoom "x" "b"].
Proof. by_eval. Qed.

(** ** C03 A broadcast reaches exactly the targeted sockets *)
Theorem C03_broadcast_targets : ∀ (P : Type) (p : P) (o : orders) (opts : option bopts) (s : nspace P),
  orders_ok o → ns_wf s →
  ∃ l, NoDup l ∧ (∀ id, id ∈ l ↔ matches s (opt_rooms opts) (opt_except opts) id) ∧
    broadcast p o opts s = NSpace (ns_reg s) (ns_sockets s) (ns_events s) (ns_written s ++ ((λ id, (id, p)) <$> l)).
Proof. exact @broadcast_spec. Qed.
Print Assumptions C03_broadcast_targets.

Theorem C03_fetch_sockets : ∀ (P : Type) (o : orders) (opts : option bopts) (s : nspace P),
  orders_ok o → ns_wf s →
  NoDup (fetch_sockets o opts s) ∧
  ∀ id, id ∈ fetch_sockets o opts s ↔ matches s (opt_rooms opts) (opt_except opts) id.
Proof. exact @query_spec. Qed.
Print Assumptions C03_fetch_sockets.

Theorem C03_all_sockets : ∀ (P : Type) (o : orders) (rooms : option (gset room)) (s : nspace P) (id : sid),
  orders_ok o → ns_wf s → id ∈ sockets_in o rooms s ↔ matches s (default ∅ rooms) ∅ id.
Proof. exact @sockets_in_spec. Qed.
Print Assumptions C03_all_sockets.

(** A concrete namespace: a in x,y; b in x; c in z; and room membership left
    behind by nobody. *)
Definition ex_ns : nspace string :=
  NSpace (run_ops true [OpJoin "a" ["a"; "x"; "y"]; OpJoin "b" ["b"; "x"]; OpJoin "c" ["c"; "z"]]).1
    {["a" := ASock "a" true; "b" := ASock "b" true; "c" := ASock "c" true]} [] [].
Lemma ex_ns_wf : ns_wf ex_ns.
Proof.
  destruct (run_ops_inv true [OpJoin "a" ["a"; "x"; "y"]; OpJoin "b" ["b"; "x"]; OpJoin "c" ["c"; "z"]]) as [H1 H2].
  { repeat constructor. }
  split; [exact H1|]. split; [exact H2|]. split.
  - intros id a. unfold ex_ns; simpl. rewrite !lookup_insert_Some, lookup_singleton_Some.
    intros [[<- <-]|[_ [[<- <-]|[_ [<- <-]]]]]; done.
  - intros id [a Ha]. revert Ha. unfold ex_ns; cbn [ns_sockets]. rewrite !lookup_insert_Some, lookup_singleton_Some.
    intros [[<- _]|[_ [[<- _]|[_ [<- _]]]]]; vm_compute; eauto.
Qed.
Lemma orders_std_ok : orders_ok orders_std.
Proof. split_and!; intros; apply ord_std_ok. Qed.
Lemma orders_rev_ok : orders_ok orders_rev.
Proof. split_and!; intros; apply ord_rev_ok. Qed.
Example C03_example : orders_ok orders_rev ∧ ns_wf ex_ns ∧
  ns_written (broadcast "hi" orders_rev (Some (BOpts (Some {["x"; "y"]}) (Some {["b"]}) None)) ex_ns) = [("a", "hi")].
Proof. split; [apply orders_rev_ok|]. split; [apply ex_ns_wf|]. by_eval. Qed.

(** ** C04 A client is notified at most once per broadcast *)
Theorem C04_at_most_once : ∀ (P : Type) (p : P) (o : orders) (opts : option bopts) (s : nspace P),
  orders_ok o → ns_wf s →
  ∃ new, ns_written (broadcast p o opts s) = ns_written s ++ new ∧
    ∀ id, length (filter (λ w, w.1 = id) new) ≤ 1 ∧
          (length (filter (λ w, w.1 = id) new) = 1 ↔ matches s (opt_rooms opts) (opt_except opts) id).
Proof. exact @broadcast_once. Qed.
Print Assumptions C04_at_most_once.
Example C04_example : ns_written (broadcast "hi" orders_std (Some (BOpts (Some {["x"; "y"; "a"]}) None None)) ex_ns)
  = [("a", "hi"); ("b", "hi")] ∨ ns_written (broadcast "hi" orders_std (Some (BOpts (Some {["x"; "y"; "a"]}) None None)) ex_ns)
  = [("b", "hi"); ("a", "hi")].
Proof. by_eval. Qed.

(** ** C05 Bulk operations act on the sockets that matched at the call *)
Theorem C05_sockets_join : ∀ (P : Type) (o : orders) (opts : option bopts) (rs : list room) (s : nspace P),
  orders_ok o → ns_wf s →
  let s' := add_sockets o opts rs s in
  (∀ id r, in_room s' id r ↔ in_room s id r ∨ (matches s (opt_rooms opts) (opt_except opts) id ∧ r ∈ rs)) ∧
  ns_sockets s' = ns_sockets s ∧ ns_written s' = ns_written s ∧ ns_wf s'.
Proof. exact @add_sockets_spec. Qed.
Print Assumptions C05_sockets_join.

Theorem C05_sockets_leave : ∀ (P : Type) (rep : bool) (o : orders) (opts : option bopts) (rs : list room) (s : nspace P),
  orders_ok o → ns_wf s →
  let s' := del_sockets rep o opts rs s in
  (∀ id r, in_room s' id r ↔ in_room s id r ∧ ¬ (matches s (opt_rooms opts) (opt_except opts) id ∧ r ∈ rs)) ∧
  ns_sockets s' = ns_sockets s ∧ ns_written s' = ns_written s ∧ ns_wf s'.
Proof. exact @del_sockets_spec. Qed.
Print Assumptions C05_sockets_leave.

Theorem C05_disconnect_sockets : ∀ (P : Type) (rep : bool) (o : orders) (opts : option bopts) (s : nspace P),
  orders_ok o → ns_wf s →
  let s' := disconnect_sockets rep o opts s in
  let gone := matches s (opt_rooms opts) (opt_except opts) in
  (∀ id r, in_room s' id r ↔ in_room s id r ∧ ¬ gone id) ∧
  (∀ id, (gone id → ns_sockets s' !! id = None) ∧ (¬ gone id → ns_sockets s' !! id = ns_sockets s !! id)) ∧
  ns_written s' = ns_written s ∧ ns_wf s'.
Proof. exact @disconnect_sockets_spec. Qed.
Print Assumptions C05_disconnect_sockets.

(** The selected room is the one being left, so the callback empties the set under
    iteration: still exactly the two members leave. *)
Example C05_example :
  members_of (ns_reg (del_sockets true orders_rev (Some (BOpts (Some {["x"]}) None None)) ["x"; "y"] ex_ns)) "x" = ∅ ∧
  members_of (ns_reg (add_sockets orders_std (Some (BOpts (Some {["x"]}) (Some {["y"]}) None)) ["z"] ex_ns)) "z" = {["b"; "c"]} ∧
  dom (ns_sockets (disconnect_sockets true orders_rev (Some (BOpts (Some {["x"]}) None None)) ex_ns)) = {["c"]}.
Proof. by_eval. Qed.

(** ** All histories of a namespace
    Sockets are admitted and closed, join and leave rooms, broadcasts and bulk operations are called, in any order.
    Every namespace that results is well-formed: the hypothesis of C03, C04 and C05 holds. *)
Theorem C03_reachable : ∀ (P : Type) (rep : bool) (h : list (nsop P)), Forall nsop_ok h → ns_wf (ns_run rep h).
Proof. exact @ns_run_wf. Qed.
Print Assumptions C03_reachable.
(** Who is in the namespace and in which room is what the history says, and each socket received exactly the broadcasts that targeted
    it when they were called, each once, in order. *)
Theorem C03_histories : ∀ (P : Type) (rep : bool) (h : list (nsop P)), Forall nsop_ok h →
  (∀ id, listed (ns_run rep h) id ↔ v_listed (view_of h) id) ∧ (∀ id r, in_room (ns_run rep h) id r ↔ v_in (view_of h) id r) ∧
  ∀ id l, received h id l ↔ packets_of id (ns_run rep h) = l.
Proof. exact @ns_histories. Qed.
Print Assumptions C03_histories.
Definition ex_ns_history : list (nsop string) :=
  [NOpen "a"; NOpen "b"; NJoin "a" ["x"]; NBroadcast "1" orders_std (Some (BOpts (Some {["x"]}) None None));
   NAddSockets orders_rev None ["x"; "y"]; NBroadcast "2" orders_rev (Some (BOpts (Some {["x"; "y"]}) None None));
   NDelSockets orders_std (Some (BOpts (Some {["b"]}) None None)) ["x"]; NBroadcast "3" orders_std (Some (BOpts (Some {["x"]}) None None));
   NDisconnectSockets orders_std (Some (BOpts None (Some {["b"]}) None)); NJoin "a" ["z"]; NBroadcast "4" orders_std None].
Example C03_histories_example : Forall nsop_ok ex_ns_history ∧ packets_of "a" (ns_run true ex_ns_history) = ["1"; "2"; "3"] ∧
  packets_of "b" (ns_run true ex_ns_history) = ["2"; "4"] ∧ members_of (ns_reg (ns_run true ex_ns_history)) "z" = ∅.
Proof. split; [repeat constructor; cbn; try apply orders_std_ok; apply orders_rev_ok|]. by_eval. Qed.
