(** Properties C13, C14: broadcasts with acknowledgement. *)
From Verif Require Import Base GoTypes BcastAck BcastAckSpec BcastAckProofs BcastAckConc.

(** ** C13 Broadcast with acknowledgement collects one reply per client
    Handlers that do not overlap, replies of exactly one argument: whatever the order of the
    servers' counts, the replies (also superfluous ones), the end of the broadcast call and the
    timer, the callback is called exactly with the first outcome, or not at all. *)
Theorem C13_first_outcome_partial : ∀ (sc : nat) (es : list bevent),
  one_arg es → n_finish es ≤ 1 →
  b_calls (bserial sc false es) =
    match first_outcome sc [] es with Some (OutOk l) => [BOk l] | Some (OutErr l) => [BErr l] | None => [] end.
Proof. intros sc es H1 H2. rewrite (serial_outcome sc false es H1 H2). by destruct (first_outcome sc [] es) as [[]|]. Qed.
Print Assumptions C13_first_outcome_partial.

(** All schedules, replies of one argument, at most one count per server and, once all servers have
    reported, at most one reply per notified client: a call without error happens only when all servers have reported and all
    clients have replied, and passes exactly their replies. *)
Theorem C13_complete_when_ok : ∀ (sc : nat) (ls : list blabel) (s : bst),
  bexec sc false ls bst0 = Some s → length (lcounts ls) ≤ sc →
  (∀ a, a ∈ lreplies ls → length a = 1) → (length (lcounts ls) = sc → length (lreplies ls) ≤ sum_list (lcounts ls)) →
  ∀ l, BOk l ∈ b_calls s →
    length (lcounts ls) = sc ∧ length (lreplies ls) = sum_list (lcounts ls) ∧ l ≡ₚ concat (lreplies ls).
Proof. exact bcast_conc. Qed.
Print Assumptions C13_complete_when_ok.

(** All schedules: at most one timeout error, and at least one call once nothing is running. *)
Theorem C13_timeout_once : ∀ (sc : nat) (single : bool) (ls : list blabel) (s : bst),
  bexec sc single ls bst0 = Some s →
  length (filter (λ c, is_err c = 1) (b_calls s)) ≤ 1 ∧ (bquiet s → 1 ≤ length (b_calls s)).
Proof. exact bcast_timer. Qed.
Print Assumptions C13_timeout_once.

(** Missing above, and false of the code, which pushes the arguments of the replies instead of
    one entry per reply (socket/broadcast-operator.go:247):
    (1) a reply with two arguments completes the collection before the second client replied; *)
Theorem C13_two_arguments_refuted :
  let es := [EbCount 2; EbFinish; EbReply [VStr "a"; VStr "b"]] in
  ¬ complete 1 es ∧ b_calls (bserial 1 false es) = [BOk [VStr "a"; VStr "b"]].
Proof. split; [intros (_&_&H); by vm_compute in H|by vm_compute]. Qed.
Print Assumptions C13_two_arguments_refuted.
(** (2) a reply without arguments is not counted: every client has replied, yet the callback
    waits for the timer and gets an error; *)
Theorem C13_no_argument_refuted :
  let es := [EbCount 1; EbFinish; EbReply []] in
  complete 1 es ∧ b_calls (bserial 1 false es) = [] ∧ b_calls (bserial 1 false (es ++ [EbTimer])) = [BErr []].
Proof. split; [|split; by vm_compute]. split; [set_solver|]. split; by vm_compute. Qed.
Print Assumptions C13_no_argument_refuted.
(** (3) and the callback may be called twice, without any concurrency. *)
Theorem C13_called_twice_refuted :
  let es := [EbCount 2; EbFinish; EbReply [VStr "a"; VStr "b"]; EbReply []] in
  b_calls (bserial 1 false es) = [BOk [VStr "a"; VStr "b"]; BOk [VStr "a"; VStr "b"]].
Proof. by vm_compute. Qed.
Print Assumptions C13_called_twice_refuted.
(** (4) Two replies handled concurrently: both push, then both find the collection complete
    (client.go:216 starts a goroutine per packet). *)
Definition sched_two_last : list blabel :=
  [LbCount 2; LbFinish; LbRun 0 true; LbRun 0 true; LbRun 0 true; LbRun 0 true; LbRun 0 true; LbRun 1 true; LbRun 1 true; LbRun 1 true; LbRun 1 true; LbRun 1 true; LbRun 1 true;
   LbReply [VStr "a"]; LbReply [VStr "b"]; LbRun 2 true; LbRun 3 true;
   LbRun 2 true; LbRun 2 true; LbRun 2 true; LbRun 2 true; LbRun 2 true; LbRun 3 true; LbRun 3 true; LbRun 3 true; LbRun 3 true; LbRun 3 true;
   LbRun 2 true; LbRun 2 true; LbRun 3 true; LbRun 3 true].
Theorem C13_concurrent_replies_refuted : ∃ (ls : list blabel) (s : bst),
  bexec 1 false ls bst0 = Some s ∧ length (lcounts ls) = 1 ∧ (∀ a, a ∈ lreplies ls → length a = 1) ∧
  length (lreplies ls) = sum_list (lcounts ls) ∧ b_calls s = [BOk [VStr "a"; VStr "b"]; BOk [VStr "a"; VStr "b"]].
Proof.
  exists sched_two_last. eexists. split; [vm_compute; reflexivity|]. split; [done|]. split; [|split; by vm_compute].
  intros a Ha. change (a ∈ [[VStr "a"]; [VStr "b"]]) in Ha. rewrite !elem_of_cons, elem_of_nil in Ha. by destruct Ha as [-> | [-> | []]].
Qed.
Print Assumptions C13_concurrent_replies_refuted.
(** (5) The timer expires between the check and the clearing of the timer: the callback gets
    both an error and the complete result. *)
Definition sched_timer_check : list blabel :=
  [LbCount 1; LbRun 0 true; LbRun 0 true; LbRun 0 true; LbRun 0 true; LbRun 0 true; LbFinish; LbRun 1 true; LbRun 1 true; LbRun 1 true; LbRun 1 true; LbRun 1 true; LbRun 1 true;
   LbReply [VStr "a"]; LbRun 2 true; LbRun 2 true; LbTimer; LbRun 3 true; LbRun 3 true;
   LbRun 2 true; LbRun 2 true; LbRun 2 true; LbRun 2 true; LbRun 2 true; LbRun 2 true].
Theorem C13_timer_and_result_refuted : ∃ (ls : list blabel) (s : bst),
  bexec 1 false ls bst0 = Some s ∧ length (lcounts ls) = 1 ∧ lreplies ls = [[VStr "a"]] ∧
  b_calls s = [BErr [VStr "a"]; BOk [VStr "a"]].
Proof. exists sched_timer_check. eexists. split; [vm_compute; reflexivity|]. split; [done|]. split; by vm_compute. Qed.
Print Assumptions C13_timer_and_result_refuted.

(** Two servers; a remote reply arrives before its server's count. *)
Definition ex_bcast : list bevent :=
  [EbReply [VStr "r1"]; EbCount 1; EbFinish; EbCount 2; EbReply [VStr "l1"]; EbReply [VStr "r2"]; EbTimer; EbReply [VStr "late"]].
Example C13_example :
  one_arg ex_bcast ∧ n_finish ex_bcast = 1 ∧ complete 2 (take 6 ex_bcast) ∧
  b_calls (bserial 2 false ex_bcast) = [BOk [VStr "r1"; VStr "l1"; VStr "r2"]] ∧
  b_calls (bserial 2 false (take 4 ex_bcast ++ [EbTimer; EbReply [VStr "l1"]])) = [BErr [VStr "r1"]].
Proof.
  split; [|split; [done|split; [|split; by vm_compute]]].
  - intros a Ha. change (a ∈ [[VStr "r1"]; [VStr "l1"]; [VStr "r2"]; [VStr "late"]]) in Ha. rewrite !elem_of_cons, elem_of_nil in Ha. naive_solver.
  - split; [set_solver|]. split; by vm_compute.
Qed.
Definition sched_ok : list blabel :=
  LbCount 1 :: LbFinish :: LbReply [VStr "a"] :: replicate 5 (LbRun 0 false) ++ replicate 4 (LbRun 2 true) ++ replicate 8 (LbRun 1 false).
Example C13_conc_example : ∃ s, bexec 1 false sched_ok bst0 = Some s ∧ lcounts sched_ok = [1] ∧ lreplies sched_ok = [[VStr "a"]] ∧
  b_calls s = [BOk [VStr "a"]] ∧ b_armed s = false.
Proof. eexists. split; [vm_compute; reflexivity|]. by vm_compute. Qed.

(** ** C14 RemoteSocket.Emit with acknowledgement behaves like Socket.Emit
    What holds: if the client's reply is exactly one array and the broadcast is never complete
    without a reply, the callback is called with the elements of that array, or with an error. *)
Theorem C14_array_reply_partial : ∀ (sc : nat) (es : list bevent) (l : list value),
  n_finish es ≤ 1 → (∀ a, a ∈ replies_of es → a = [VArr l]) →
  (∀ pre, pre `prefix_of` es → complete sc pre → 1 ≤ length (replies_of pre)) →
  b_calls (bserial sc true es) =
    match first_outcome sc [] es with Some (OutOk _) => [BOk l] | Some (OutErr _) => [BErr []] | None => [] end.
Proof. exact array_reply. Qed.
Print Assumptions C14_array_reply_partial.

(** False of the code otherwise ([data.([]any)] without a check, socket/broadcast-operator.go:226-229):
    (1) any other reply crashes the server; *)
Theorem C14_plain_reply_refuted : ∀ (v : value), (∀ l, v ≠ VArr l) →
  b_calls (bserial 1 true [EbCount 1; EbFinish; EbReply [v]]) = [BPanic].
Proof. intros v Hv. destruct v; try by vm_compute. by destruct (Hv l). Qed.
Print Assumptions C14_plain_reply_refuted.
(** (2) emitting to a client that is gone crashes the server; *)
Theorem C14_gone_client_refuted : b_calls (bserial 1 true [EbCount 0; EbFinish]) = [BPanic].
Proof. by vm_compute. Qed.
Print Assumptions C14_gone_client_refuted.
(** (3) an array reply is delivered as its elements, where Socket.Emit delivers one array argument. *)
Theorem C14_array_unwrapped_refuted : ∀ (l : list value),
  b_calls (bserial 1 true [EbCount 1; EbFinish; EbReply [VArr l]]) = [BOk l] ∧ l ≠ [VArr l].
Proof.
  intros l. split; [by vm_compute|]. intros H.
  assert (∀ v : value, ∀ l, v = VArr l → l ≠ [v]) as Hv.
  { intros v l0 -> Hq. assert (∃ n, n = n) as _ by (by exists 0). clear H.
    revert Hq. set (f := fix f (v : value) : nat := match v with VArr l => S (sum_list_with f l) | _ => 0 end).
    intros Hq. assert (f (VArr l0) = S (sum_list_with f l0)) as E by done. rewrite Hq in E at 2. simpl in E. lia. }
  by apply (Hv (VArr l) l).
Qed.
Print Assumptions C14_array_unwrapped_refuted.
Example C14_example :
  let es := [EbCount 0; EbCount 1; EbFinish; EbReply [VArr [VStr "a"; VNum 2]]] in
  n_finish es = 1 ∧ complete 2 es ∧ b_calls (bserial 2 true es) = [BOk [VStr "a"; VNum 2]].
Proof. split; [done|]. split; [|by vm_compute]. split; [set_solver|]. split; by vm_compute. Qed.
