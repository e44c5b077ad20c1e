(** Property C56: requests between the servers of a cluster. *)
From Verif Require Import Base GoTypes Rooms Adapter AdapterSpec Cluster ClusterSpec ClusterReq ClusterReqSpec ClusterExamples ClusterFetch ClusterFetchSpec ClusterFetchResults ClusterFetchExamples.

(** ** C56 Requests between servers
    Step [k] is a FetchSockets on server [n], its request id is [rid], its callback is [cb].
    A result without error: the matching sockets of [n] at the call, and then one part for each of some other
    servers; a part is exactly the matching sockets of that server at some moment after the call, with
    the rooms they were in.  Every server known at the call has a part, or was not known at some later moment. *)
Theorem C56_fetch : ∀ (timeout : Z) (uids : gset string) (h : list fop) (k : nat) (n : string) (cb : nat) (rid : string) (opts : option bopts) (pub echo : bool) (e1 e2 : order) (os : orders),
  Forall (fop_ok uids) h → asks_ok h → h !! k = Some (FFetch n cb rid opts pub echo e1 e2 os) → ∀ l, outcome (frun timeout uids h) n cb = [CalledOk l] →
  ∃ nd local parts, fc_nodes (frun timeout uids (take k h)) !! n = Some nd ∧ describes own_socket (fn_ns nd) opts local ∧ l = local ++ concat parts.*2 ∧
    NoDup parts.*1 ∧ Forall (fetched timeout uids h k n opts) parts ∧ (local_opts opts → parts = []) ∧ (¬ local_opts opts → covers timeout uids h k n parts.*1).
Proof. exact fetch_ok. Qed.
Print Assumptions C56_fetch.
(** When nothing changes during the call and every server is known: exactly the matching sockets of the cluster. *)
Theorem C56_snapshot : ∀ (timeout : Z) (uids : gset string) (h : list fop) (k : nat) (n : string) (cb : nat) (rid : string) (opts : option bopts) (pub echo : bool) (e1 e2 : order) (os : orders),
  Forall (fop_ok uids) h → asks_ok h → h !! k = Some (FFetch n cb rid opts pub echo e1 e2 os) → ∀ l, outcome (frun timeout uids h) n cb = [CalledOk l] → ¬ local_opts opts →
  (∀ j u, k ≤ j → j ≤ length h → u ∈ uids → u ≠ n → knows (frun timeout uids (take j h)) n u) →
  (∀ j m, k ≤ j → j ≤ length h → (fn_ns <$> fc_nodes (frun timeout uids (take j h)) !! m) = (fn_ns <$> fc_nodes (frun timeout uids h) !! m)) →
  ∃ local parts nd, l = local ++ concat parts.*2 ∧ fc_nodes (frun timeout uids h) !! n = Some nd ∧ describes own_socket (fn_ns nd) opts local ∧
    parts.*1 ≡ₚ elements (uids ∖ {[n]}) ∧
    ∀ m v, (m, v) ∈ parts → ∃ nd, fc_nodes (frun timeout uids h) !! m = Some nd ∧ describes (other_socket (fn_ns nd)) (fn_ns nd) opts v.
Proof. exact fetch_snapshot. Qed.
Print Assumptions C56_snapshot.
(** A result with an error is empty, and comes from the timer: a server known at the call and ever since has not
    answered; if the request could be published, the request or the response is still on its way. *)
Theorem C56_fetch_timeout : ∀ (timeout : Z) (uids : gset string) (h : list fop) (k : nat) (n : string) (cb : nat) (rid : string) (opts : option bopts) (pub echo : bool) (e1 e2 : order) (os : orders),
  Forall (fop_ok uids) h → asks_ok h → h !! k = Some (FFetch n cb rid opts pub echo e1 e2 os) → ∀ l, outcome (frun timeout uids h) n cb = [CalledErr l] →
  l = [] ∧ ∃ j u, k < j ∧ h !! j = Some (FTimer n rid) ∧ outcome (frun timeout uids (take j h)) n cb = [] ∧
    knows (frun timeout uids (take k h)) n u ∧ knows (frun timeout uids (take j h)) n u ∧ (pub = true → outstanding timeout uids h k n j rid u).
Proof. exact fetch_err. Qed.
Print Assumptions C56_fetch_timeout.
(** When every server known at the call has answered, or has left, the callback has been called without error. *)
Theorem C56_fetch_complete : ∀ (timeout : Z) (uids : gset string) (h : list fop) (k : nat) (n : string) (cb : nat) (rid : string) (opts : option bopts) (pub echo : bool) (e1 e2 : order) (os : orders),
  Forall (fop_ok uids) h → asks_ok h → h !! k = Some (FFetch n cb rid opts pub echo e1 e2 os) → pub = true →
  (∀ u, knows (frun timeout uids (take k h)) n u →
    (u ∈ uids ∧ requests_way (frun timeout uids h) n rid u = 0 ∧ responses_way (frun timeout uids h) n rid u = 0) ∨ lost timeout uids h k n u) →
  (∀ j, k < j → h !! j ≠ Some (FTimer n rid)) → ∃ l, outcome (frun timeout uids h) n cb = [CalledOk l].
Proof. exact fetch_complete. Qed.
Print Assumptions C56_fetch_complete.
(** A local call, or one on a server that knows no other: the result comes at once and nothing is sent. *)
Theorem C56_fetch_alone : ∀ (timeout : Z) (uids : gset string) (h : list fop) (k : nat) (n : string) (cb : nat) (rid : string) (opts : option bopts) (pub echo : bool) (e1 e2 : order) (os : orders),
  Forall (fop_ok uids) h → asks_ok h → h !! k = Some (FFetch n cb rid opts pub echo e1 e2 os) →
  local_opts opts ∨ (∀ u, ¬ knows (frun timeout uids (take k h)) n u) →
  ∃ nd local, fc_nodes (frun timeout uids (take k h)) !! n = Some nd ∧ describes own_socket (fn_ns nd) opts local ∧
    outcome (frun timeout uids h) n cb = [CalledOk local] ∧ fc_net (frun timeout uids (take (S k) h)) = fc_net (frun timeout uids (take k h)).
Proof. exact fetch_alone. Qed.
Print Assumptions C56_fetch_alone.
(** The callback is called at most once, and exactly once when the timer has fired. *)
Theorem C56_fetch_once : ∀ (timeout : Z) (uids : gset string) (h : list fop) (k : nat) (n : string) (cb : nat) (rid : string) (opts : option bopts) (pub echo : bool) (e1 e2 : order) (os : orders),
  Forall (fop_ok uids) h → asks_ok h → h !! k = Some (FFetch n cb rid opts pub echo e1 e2 os) →
  length (outcome (frun timeout uids h) n cb) ≤ 1 ∧ ∀ j, k < j → h !! j = Some (FTimer n rid) → length (outcome (frun timeout uids h) n cb) = 1.
Proof. exact fetch_exactly. Qed.
Print Assumptions C56_fetch_once.
(** The others are those that are known: a server of the cluster that has not been heard of can be missing. *)
Theorem C56_stranger_refuted : ∃ (timeout : Z) (uids : gset string) (h : list fop) (k : nat) (n : string) (cb : nat) (rid : string) (opts : option bopts) (echo : bool) (e1 e2 : order) (os : orders) (l : list value) (m : string) (id : sid),
  Forall (fop_ok uids) h ∧ asks_ok h ∧ h !! k = Some (FFetch n cb rid opts true echo e1 e2 os) ∧ ¬ local_opts opts ∧ outcome (frun timeout uids h) n cb = [CalledOk l] ∧
  m ∈ uids ∧ (∀ j, j = k ∨ j = length h → ∃ nd, fc_nodes (frun timeout uids (take j h)) !! m = Some nd ∧ matches (fn_ns nd) (opt_rooms opts) (opt_except opts) id) ∧
  VStr id ∉ l ∧ ∀ v, VArr [VStr id; v] ∉ l.
Proof. exact fx_stranger_lost. Qed.
Print Assumptions C56_stranger_refuted.

(** Both others answer; one leaves; one stays silent. *)
Example C56_fetch_ex : Forall (fop_ok ex_uids) fx_all ∧ asks_ok fx_all ∧ fx_all !! 9 = Some fx_fetch ∧ ¬ local_opts fx_to ∧
  outcome (fx_run fx_all) "A" 0 = [CalledOk [VStr "a1"; VArr [VStr "c1"; VStrs ["r"; "c1"]]; VArr [VStr "b1"; VStrs ["b1"; "r"; "q"]]]] ∧
  requests_way (fx_run fx_all) "A" "q1" "B" = 0 ∧ responses_way (fx_run fx_all) "A" "q1" "B" = 0.
Proof. split_and!; [apply fx_ok|apply fx_asks|done|intros (o & f & [= <-] & Hf & _); done|vm_compute; reflexivity..]. Qed.
Example C56_gone_ex : Forall (fop_ok ex_uids) fx_gone ∧ asks_ok fx_gone ∧ fx_gone !! 9 = Some fx_fetch ∧ requests_way (fx_run fx_gone) "A" "q1" "C" = 1 ∧
  outcome (fx_run fx_gone) "A" 0 = [CalledOk [VStr "a1"; VArr [VStr "b1"; VStrs ["b1"; "r"; "q"]]]].
Proof. split_and!; [apply fx_ok|apply fx_asks|done|vm_compute; reflexivity..]. Qed.
Example C56_late_ex : Forall (fop_ok ex_uids) fx_late ∧ asks_ok fx_late ∧ fx_late !! 9 = Some fx_fetch ∧ fx_late !! 12 = Some (FTimer "A" "q1") ∧
  outcome (fx_run (take 12 fx_late)) "A" 0 = [] ∧ outcome (fx_run fx_late) "A" 0 = [CalledErr []].
Proof. split_and!; [apply fx_ok|apply fx_asks|done|done|vm_compute; reflexivity..]. Qed.
Example C56_alone_ex : Forall (fop_ok ex_uids) fx_alone ∧ asks_ok fx_alone ∧ fx_alone !! 9 = Some (FFetch "A" 0 "q1" fx_local true false ord_std ord_std orders_std) ∧ local_opts fx_local ∧
  outcome (fx_run fx_alone) "A" 0 = [CalledOk [VStr "a1"]].
Proof. split_and!; [apply fx_alone_ok|apply fx_alone_ok|done|by exists (BOpts (Some {["r"]}) None (Some (Flags false false false true false false None false))), (Flags false false false true false false None false)|vm_compute; reflexivity]. Qed.
Example C56_snapshot_ex : Forall (fop_ok ex_uids) fx_still ∧ asks_ok fx_still ∧ fx_still !! 9 = Some fx_fetch ∧ ¬ local_opts fx_to ∧
  (∀ j u, 9 ≤ j → j ≤ length fx_still → u ∈ ex_uids → u ≠ "A" → knows (fx_run (take j fx_still)) "A" u) ∧
  (∀ j m, 9 ≤ j → j ≤ length fx_still → (fn_ns <$> fc_nodes (fx_run (take j fx_still)) !! m) = (fn_ns <$> fc_nodes (fx_run fx_still) !! m)) ∧
  outcome (fx_run fx_still) "A" 0 = [CalledOk [VStr "a1"; VArr [VStr "c1"; VStrs ["r"; "c1"]]; VArr [VStr "b1"; VStrs ["b1"; "r"; "q"]]]].
Proof. exact fx_still_ex. Qed.

(** Step [k] is a ServerSideEmit with a callback.  A result without error: for each of some other servers, the
    first answer its listeners gave after they were called with the event of this call.  Every server
    known at the call is among them, or was not known at some later moment. *)
Theorem C56_emit : ∀ (timeout : Z) (uids : gset string) (h : list fop) (k : nat) (n : string) (cb : nat) (rid ev : string) (args : list value) (pub echo : bool),
  Forall (fop_ok uids) h → asks_ok h → h !! k = Some (FEmit n (Some cb) rid ev args pub echo) → ∀ l, outcome (frun timeout uids h) n cb = [CalledOk l] →
  ∃ parts, l = (VArr ∘ snd) <$> parts ∧ NoDup parts.*1 ∧ Forall (answered timeout uids h k n rid ev args) parts ∧ covers timeout uids h k n parts.*1.
Proof. exact emit_ok. Qed.
Print Assumptions C56_emit.
(** A result with an error has the answers that came, and comes from the timer: some server has not answered. *)
Theorem C56_emit_timeout : ∀ (timeout : Z) (uids : gset string) (h : list fop) (k : nat) (n : string) (cb : nat) (rid ev : string) (args : list value) (pub echo : bool),
  Forall (fop_ok uids) h → asks_ok h → h !! k = Some (FEmit n (Some cb) rid ev args pub echo) → ∀ l, outcome (frun timeout uids h) n cb = [CalledErr l] →
  (∃ parts, l = (VArr ∘ snd) <$> parts ∧ NoDup parts.*1 ∧ Forall (answered timeout uids h k n rid ev args) parts) ∧
  ∃ j u, k < j ∧ h !! j = Some (FTimer n rid) ∧ outcome (frun timeout uids (take j h)) n cb = [] ∧
    knows (frun timeout uids (take k h)) n u ∧ knows (frun timeout uids (take j h)) n u ∧ (pub = true → outstanding timeout uids h k n j rid u).
Proof. exact emit_err. Qed.
Print Assumptions C56_emit_timeout.
(** When the listeners of every server known at the call have answered, or it has left, the callback has been called. *)
Theorem C56_emit_complete : ∀ (timeout : Z) (uids : gset string) (h : list fop) (k : nat) (n : string) (cb : nat) (rid ev : string) (args : list value) (pub echo : bool),
  Forall (fop_ok uids) h → asks_ok h → h !! k = Some (FEmit n (Some cb) rid ev args pub echo) → pub = true →
  (∀ u, knows (frun timeout uids (take k h)) n u →
    (u ∈ uids ∧ requests_way (frun timeout uids h) n rid u = 0 ∧ ¬ callback_held (frun timeout uids h) n rid u ∧ responses_way (frun timeout uids h) n rid u = 0) ∨ lost timeout uids h k n u) →
  (∀ j, k < j → h !! j ≠ Some (FTimer n rid)) → ∃ l, outcome (frun timeout uids h) n cb = [CalledOk l].
Proof. exact emit_complete. Qed.
Print Assumptions C56_emit_complete.
Theorem C56_emit_alone : ∀ (timeout : Z) (uids : gset string) (h : list fop) (k : nat) (n : string) (cb : nat) (rid ev : string) (args : list value) (pub echo : bool),
  Forall (fop_ok uids) h → asks_ok h → h !! k = Some (FEmit n (Some cb) rid ev args pub echo) → (∀ u, ¬ knows (frun timeout uids (take k h)) n u) →
  outcome (frun timeout uids h) n cb = [CalledOk []] ∧ fc_net (frun timeout uids (take (S k) h)) = fc_net (frun timeout uids (take k h)).
Proof. exact emit_alone. Qed.
Print Assumptions C56_emit_alone.
Theorem C56_emit_once : ∀ (timeout : Z) (uids : gset string) (h : list fop) (k : nat) (n : string) (cb : nat) (rid ev : string) (args : list value) (pub echo : bool),
  Forall (fop_ok uids) h → asks_ok h → h !! k = Some (FEmit n (Some cb) rid ev args pub echo) →
  length (outcome (frun timeout uids h) n cb) ≤ 1 ∧ ∀ j, k < j → h !! j = Some (FTimer n rid) → length (outcome (frun timeout uids h) n cb) = 1.
Proof. exact emit_exactly. Qed.
Print Assumptions C56_emit_once.

(** With or without a callback: the event is on its way to a server, or the listeners there were called with
    it, once.  A call with a callback sends it only if some server is known. *)
Theorem C56_event : ∀ (timeout : Z) (uids : gset string) (h : list fop) (k : nat) (n : string) (ack : option nat) (rid ev : string) (args : list value) (pub echo : bool) (m : string),
  Forall (fop_ok uids) h → h !! k = Some (FEmit n ack rid ev args pub echo) → m ∈ uids → m ≠ n → pub = true → (ack = None ∨ ∃ u, knows (frun timeout uids (take k h)) n u) →
  (events_way (frun timeout uids h) m k = 1 ∧ heard (frun timeout uids h) m k = []) ∨ (events_way (frun timeout uids h) m k = 0 ∧ heard (frun timeout uids h) m k = [(ev, args)]).
Proof. exact event_way. Qed.
Print Assumptions C56_event.
(** Listeners are called for nothing else, and not on the server that emits. *)
Theorem C56_event_only : ∀ (timeout : Z) (uids : gset string) (h : list fop) (k : nat) (m : string) (x : string * list value),
  Forall (fop_ok uids) h → m ∈ uids → x ∈ heard (frun timeout uids h) m k →
  heard (frun timeout uids h) m k = [x] ∧ ∃ n ack rid echo, h !! k = Some (FEmit n ack rid x.1 x.2 true echo) ∧ n ≠ m ∧ (ack = None ∨ ∃ u, knows (frun timeout uids (take k h)) n u).
Proof. exact event_only. Qed.
Print Assumptions C56_event_only.

Example C56_emit_ex : Forall (fop_ok ex_uids) fx_event ∧ asks_ok fx_event ∧ fx_event !! 9 = Some (fx_emit true) ∧
  outcome (fx_run fx_event) "A" 1 = [CalledOk [VArr [VStr "c"]; VArr [VStr "b"]]] ∧
  heard (fx_run fx_event) "B" 9 = [("ev", [VStr "x"])] ∧ heard (fx_run fx_event) "A" 9 = [].
Proof. split_and!; [apply fx_ok|apply fx_asks|done|vm_compute; reflexivity..]. Qed.
Example C56_emit_late_ex : Forall (fop_ok ex_uids) fx_event_late ∧ asks_ok fx_event_late ∧ fx_event_late !! 9 = Some (fx_emit true) ∧ fx_event_late !! 13 = Some (FTimer "A" "q2") ∧
  outcome (fx_run fx_event_late) "A" 1 = [CalledErr [VArr [VStr "c"]]] ∧ events_way (fx_run fx_event_late) "B" 9 = 1.
Proof. split_and!; [apply fx_ok|apply fx_asks|done|done|vm_compute; reflexivity..]. Qed.
