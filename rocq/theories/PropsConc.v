(** Properties C44, C50: incoming events and room membership under concurrency. *)
From Coq Require Import Sorting.Sorted.
From Verif Require Import Base GoTypes Dispatch DispatchSpec DispatchProofs Rooms RoomsConc RoomsConcSpec RoomsConcProofs.

(** ** C44 Incoming events are handled exactly once and in order
    Every schedule: a call of the handlers is for a packet received, which the middlewares let pass, with its
    name, its arguments and the acknowledgement function; it is the only one for this packet and comes after
    the catch-all listeners. *)
Theorem C44_at_most_once : ∀ (ls : list dlabel) (k : nat) (ev : string) (args : list value), LHandler k ev args ∈ ds_log (drun ls) →
  ∃ x, received true ls !! k = Some x ∧ dp_verdict x = None ∧ VStr ev :: args = dargs k x ∧
       filter (λ e, log_packet e = k) (ds_log (drun ls)) = [LAny k (dargs k x); LHandler k ev args].
Proof. exact handler_once. Qed.
Print Assumptions C44_at_most_once.
(** Without a disconnection, a packet with an event name is dispatched exactly once. *)
Theorem C44_exactly_once : ∀ (ls : list dlabel) (k : nat) (x : dpacket) (ev : string) (args : list value),
  received true ls !! k = Some x → names x ev args → dp_verdict x = None → DDisc ∉ ls → idle (drun ls) →
  trace_of k (ds_log (drun ls)) = [LAny k (dargs k x); LHandler k ev (args ++ if dp_id x then [VAck k] else [])].
Proof. exact exactly_once. Qed.
Print Assumptions C44_exactly_once.
(** Packets received after the disconnection are not dispatched. *)
Theorem C44_disconnected : ∀ (l1 l2 : list dlabel) (k : nat) (ev : string) (args : list value),
  DDisc ∈ l1 → length (received true l1) ≤ k → LHandler k ev args ∉ ds_log (drun (l1 ++ l2)).
Proof. exact after_disconnect. Qed.
Print Assumptions C44_disconnected.
(** The order of reception is kept if each packet is received after the previous one is finished with. *)
Theorem C44_order_partial : ∀ ls : list dlabel, one_at_a_time ls → StronglySorted lt (handled (ds_log (drun ls))).
Proof. exact in_order. Qed.
Print Assumptions C44_order_partial.
Definition dp (ev : string) (n : Z) : dpacket := DPacket [VStr ev; VNum n] true None.
(** In general it is not: each packet has its own goroutines. *)
Theorem C44_order_refuted : ∃ ls, received true ls = [dp "a" 1; dp "b" 2] ∧ idle (drun ls) ∧ handled (ds_log (drun ls)) = [1; 0].
Proof.
  exists [DRecv (dp "a" 1); DRecv (dp "b" 2); DStep 0; DStep 1; DStep 0; DStep 1; DStep 1; DStep 1; DStep 0; DStep 0].
  split_and!; [vm_compute; reflexivity| |vm_compute; reflexivity].
  intros x p H. vm_compute in H. apply elem_of_cons in H as [[= _ ->]|[[= _ ->]|H%elem_of_nil]%elem_of_cons]; done.
Qed.
Print Assumptions C44_order_refuted.
Example C44_example :
  let ls := [DRecv (dp "a" 1); DStep 0; DStep 0; DStep 0; DStep 0; DRecv (DPacket [VStr "x"] false (Some "no")); DStep 1; DStep 1; DStep 1;
             DRecv (dp "b" 2); DStep 2; DStep 2; DStep 2; DDisc; DStep 2; DRecv (dp "c" 3); DStep 3; DStep 3; DStep 3] in
  ds_log (drun ls) = [LAny 0 [VStr "a"; VNum 1; VAck 0]; LHandler 0 "a" [VNum 1; VAck 0]; LAny 1 [VStr "x"]; LError 1 "no";
                      LAny 2 [VStr "b"; VNum 2; VAck 2]; LHandler 2 "b" [VNum 2; VAck 2]; LAny 3 [VStr "c"; VNum 3; VAck 3]; LIgnored 3] ∧
  names (dp "a" 1) "a" [VNum 1].
Proof. split; vm_compute; reflexivity. Qed.
(** Two packets, the second received when the first is finished with: the hypotheses of [C44_exactly_once] and [C44_order_partial]. *)
Example C44_orderly_example : let ls := [DRecv (dp "a" 1); DStep 0; DStep 0; DStep 0; DStep 0; DRecv (dp "b" 2); DStep 1; DStep 1; DStep 1; DStep 1] in
  received true ls !! 1 = Some (dp "b" 2) ∧ DDisc ∉ ls ∧ idle (drun ls) ∧ one_at_a_time ls ∧ handled (ds_log (drun ls)) = [0; 1].
Proof.
  cbv zeta. split_and!; [vm_compute; reflexivity| | | |vm_compute; reflexivity].
  - rewrite !elem_of_cons, elem_of_nil. intros H. repeat (destruct H as [H|H]; [discriminate H|]). exact H.
  - intros x p H. vm_compute in H. apply elem_of_cons in H as [[= _ ->]|[[= _ ->]|H%elem_of_nil]%elem_of_cons]; done.
  - intros l1 x l2 E y p H.
    do 6 (destruct l1 as [|? l1]; [try discriminate E; vm_compute in H; repeat (apply elem_of_cons in H as [[= _ ->]|H]; [done|]); by apply elem_of_nil in H|injection E as <- E]).
    exfalso. do 4 (destruct l1 as [|? l1]; [discriminate E|injection E as <- E]). destruct l1; discriminate E.
Qed.

(** ** C50 Room membership under concurrency
    Every schedule: when all calls have returned, a socket that was in the room or joined it, and did not leave
    it, is a member in both views, provided the room keeps a member or nobody leaves it. *)
Theorem C50_join_partial : ∀ (o : order), order_ok o → ∀ (g : registry) (ts : list rcall) (sched : list nat) (id : sid) (r : room),
  agreeing g → untouched g ts r ∨ inhabited g ts r → (id ∈ members_of g r ∨ joins ts id r) → ¬ leaves ts id r →
  returned (rc_run o g ts sched) → id ∈ conc_members (rc_run o g ts sched).1 r ∧ r ∈ conc_rooms_of (rc_run o g ts sched).1 id.
Proof. exact joined. Qed.
Print Assumptions C50_join_partial.
(** A member that does not leave stays a member, whatever the others do. *)
Theorem C50_stays : ∀ (o : order), order_ok o → ∀ (g : registry) (ts : list rcall) (sched : list nat) (id : sid) (r : room),
  agreeing g → id ∈ members_of g r → ¬ leaves ts id r → returned (rc_run o g ts sched) →
  id ∈ conc_members (rc_run o g ts sched).1 r ∧ r ∈ conc_rooms_of (rc_run o g ts sched).1 id.
Proof. exact remains. Qed.
Print Assumptions C50_stays.
(** A socket that leaves the room and does not join it is out of both views, whatever the others do. *)
Theorem C50_leave : ∀ (o : order), order_ok o → ∀ (g : registry) (ts : list rcall) (sched : list nat) (id : sid) (r : room),
  agreeing g → leaves ts id r → ¬ joins ts id r → returned (rc_run o g ts sched) →
  id ∉ conc_members (rc_run o g ts sched).1 r ∧ r ∉ conc_rooms_of (rc_run o g ts sched).1 id.
Proof. exact left_. Qed.
Print Assumptions C50_leave.
(** Membership is never invented, at any time. *)
Theorem C50_sound : ∀ (o : order), order_ok o → ∀ (g : registry) (ts : list rcall) (sched : list nat) (id : sid) (r : room),
  agreeing g → (id ∈ conc_members (rc_run o g ts sched).1 r ∨ r ∈ conc_rooms_of (rc_run o g ts sched).1 id) →
  id ∈ members_of g r ∨ joins ts id r.
Proof. exact sound. Qed.
Print Assumptions C50_sound.

Definition reg1 : registry := Registry {["r" := {["b"]}]} {["b" := {["r"]}]}.
(** The last member leaves while another socket joins: the join is lost, and the views disagree. *)
Definition sched_last : list nat := [0;0;0;0;0; 1;1;1;1;1; 0].
Theorem C50_join_lost_refuted : ∃ o g ts sched id r, order_ok o ∧ agreeing g ∧ joins ts id r ∧ ¬ leaves ts id r ∧ returned (rc_run o g ts sched) ∧
  id ∉ conc_members (rc_run o g ts sched).1 r ∧ r ∈ conc_rooms_of (rc_run o g ts sched).1 id.
Proof.
  exists ord_std, reg1, [RcDel "b" "r"; RcAdd "a" ["r"]], sched_last, "a", "r". split_and!.
  - apply ord_std_ok.
  - apply agreeing_of_maps. vm_compute. reflexivity.
  - exists ["r"]. split; [right; left|left].
  - intros [H|H]; repeat (apply elem_of_cons in H as [H|H]; [done|]); by apply elem_of_nil in H.
  - apply returned_all. vm_compute. reflexivity.
  - by_eval.
  - by_eval.
Qed.
Print Assumptions C50_join_lost_refuted.
(** A socket that is not in the room and leaves it is enough to lose the join of another. *)
Definition sched_stranger : list nat := [1;1;1; 0;0;0;0;0; 1;1].
Theorem C50_stranger_refuted : ∃ o g ts sched id r, order_ok o ∧ agreeing g ∧ joins ts id r ∧ ¬ leaves ts id r ∧ returned (rc_run o g ts sched) ∧
  (∀ m, m ∉ members_of g r) ∧ id ∉ conc_members (rc_run o g ts sched).1 r.
Proof.
  exists ord_std, empty_registry, [RcDel "b" "r"; RcAdd "a" ["r"]], sched_stranger, "a", "r". split_and!.
  - apply ord_std_ok.
  - apply agreeing_of_maps. vm_compute. reflexivity.
  - exists ["r"]. split; [right; left|left].
  - intros [H|H]; repeat (apply elem_of_cons in H as [H|H]; [done|]); by apply elem_of_nil in H.
  - apply returned_all. vm_compute. reflexivity.
  - intros m. unfold members_of. cbn. rewrite lookup_empty. cbn. apply not_elem_of_empty.
  - by_eval.
Qed.
Print Assumptions C50_stranger_refuted.
(** A socket that joins and leaves a room at the same time can end up in one view only. *)
Definition sched_self : list nat := [0;0; 1;1;1;1;1; 0;0;0;0].
Theorem C50_views_refuted : ∃ o g ts sched id r, order_ok o ∧ agreeing g ∧ returned (rc_run o g ts sched) ∧
  id ∉ conc_members (rc_run o g ts sched).1 r ∧ r ∈ conc_rooms_of (rc_run o g ts sched).1 id.
Proof.
  exists ord_std, reg1, [RcDel "b" "r"; RcAdd "b" ["r"]], sched_self, "b", "r". split_and!.
  - apply ord_std_ok.
  - apply agreeing_of_maps. vm_compute. reflexivity.
  - apply returned_all. vm_compute. reflexivity.
  - by_eval.
  - by_eval.
Qed.
Print Assumptions C50_views_refuted.

(** Three joins and two leaves, interleaved, in a room that keeps a member. *)
Definition reg2 : registry := Registry {["r" := {["b"; "c"]}]} {["b" := {["r"]}; "c" := {["r"]}]}.
Definition ts2 : list rcall := [RcAdd "a" ["r"; "q"]; RcDelAll "b"; RcAdd "d" ["r"]; RcDel "d" "q"].
Definition sched2 : list nat := concat (replicate 12 [0; 1; 2; 3]).
Example C50_example : agreeing reg2 ∧ inhabited reg2 ts2 "r" ∧ joins ts2 "a" "r" ∧ ¬ leaves ts2 "a" "r" ∧ returned (rc_run ord_rev reg2 ts2 sched2) ∧
  conc_members (rc_run ord_rev reg2 ts2 sched2).1 "r" = {["a"; "c"; "d"]}.
Proof.
  split_and!.
  - apply agreeing_of_maps. vm_compute. reflexivity.
  - exists "c". split; [by_eval|]. intros [H|H]; repeat (apply elem_of_cons in H as [H|H]; [done|]); by apply elem_of_nil in H.
  - exists ["r"; "q"]. split; left.
  - intros [H|H]; repeat (apply elem_of_cons in H as [H|H]; [done|]); by apply elem_of_nil in H.
  - apply returned_all. vm_compute. reflexivity.
  - by_eval.
Qed.
