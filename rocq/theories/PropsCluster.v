(** Properties C38 to C43: the cluster adapter. *)
From Verif Require Import Base GoTypes Rooms Adapter AdapterSpec Cluster ClusterSpec ClusterProofs ClusterReq ClusterReqSpec ClusterReqProofs ClusterReqConc ClusterReqConcProofs ClusterExamples.

(** ** C38 Cluster broadcast reaches each matching socket of the cluster exactly once
    Call number [k] is a broadcast on server [n]; [writes final m k] lists the sockets of server [m] to which
    its packet is written, with the data.  The sockets are those that match when the server handles it. *)
Theorem C38_exactly_once : ∀ (csr : bool) (uids : gset string) (h1 : list cop) (n : string) (ty : ptype) (ack : bool) (data : list value)
    (opts : option bopts) (off : string) (echo : bool) (e1 e2 : order) (os : orders) (h2 : list cop),
  let op := CCall n (GBroadcast ty ack data) opts (Some off) echo e1 e2 os in
  let k := length h1 in
  let final := crun csr uids (h1 ++ op :: h2) in
  Forall (cop_ok uids) (h1 ++ op :: h2) → ¬ local_opts opts →
  ∃ d, with_offset csr ty ack data opts off d ∧
    (* the emitting server *)
    (∃ nd l, cl_nodes (crun csr uids h1) !! n = Some nd ∧ NoDup l ∧ (∀ id, id ∈ l ↔ matches nd (opt_rooms opts) (opt_except opts) id) ∧ writes final n k = (λ id, (id, d)) <$> l) ∧
    (* every other server: the message is on its way, or was handled once *)
    (∀ m, m ∈ uids → m ≠ n →
      (in_flight final m k = 1 ∧ deliveries csr uids (h1 ++ [op]) h2 m k = 0 ∧ writes final m k = []) ∨
      (in_flight final m k = 0 ∧ deliveries csr uids (h1 ++ [op]) h2 m k = 1 ∧
        ∃ a op' b nd l, h2 = a ++ op' :: b ∧ delivers (crun csr uids (h1 ++ op :: a)) op' m k ∧ cl_nodes (crun csr uids (h1 ++ op :: a)) !! m = Some nd ∧
          NoDup l ∧ (∀ id, id ∈ l ↔ matches nd (opt_rooms opts) (opt_except opts) id) ∧ writes final m k = (λ id, (id, d)) <$> l)).
Proof. exact cluster_broadcast. Qed.
Print Assumptions C38_exactly_once.
Theorem C38_local : ∀ (csr : bool) (uids : gset string) (h1 : list cop) (n : string) (ty : ptype) (ack : bool) (data : list value)
    (opts : option bopts) (pub : option string) (echo : bool) (e1 e2 : order) (os : orders) (h2 : list cop),
  let op := CCall n (GBroadcast ty ack data) opts pub echo e1 e2 os in
  let k := length h1 in
  let final := crun csr uids (h1 ++ op :: h2) in
  Forall (cop_ok uids) (h1 ++ op :: h2) → local_opts opts →
  (∃ nd l, cl_nodes (crun csr uids h1) !! n = Some nd ∧ NoDup l ∧ (∀ id, id ∈ l ↔ matches nd (opt_rooms opts) (opt_except opts) id) ∧ writes final n k = (λ id, (id, data)) <$> l) ∧
  (∀ m, m ≠ n → writes final m k = []).
Proof. exact local_broadcast. Qed.
Print Assumptions C38_local.
(** Handling a message publishes nothing. *)
Theorem C38_no_relay : ∀ (csr : bool) (s : cluster) (i : nat) (os : orders) (x : string * cmsg),
  x ∈ cl_net (cstep csr s (CDeliver i os)) → x ∈ cl_net s.
Proof. exact deliver_net. Qed.
Print Assumptions C38_no_relay.

Example C38_example : let final := crun true ex_uids (ex_setup ++ ex_bcast false :: ex_rest) in
  Forall (cop_ok ex_uids) (ex_setup ++ ex_bcast false :: ex_rest) ∧ cl_net final = [] ∧
  writes final "A" 9 = [("a1", [VStr "ev"; VStr "off"])] ∧ writes final "B" 9 = [("b1", [VStr "ev"; VStr "off"])] ∧
  writes final "C" 9 = [("c1", [VStr "ev"; VStr "off"])] ∧
  (let final := crun true ex_uids (ex_setup ++ ex_bcast true :: ex_rest) in
   writes final "A" 9 = [("a1", [VStr "ev"])] ∧ writes final "B" 9 = [] ∧ writes final "C" 9 = []).
Proof. cbv zeta. split; [apply ex_ok|]. split_and!; vm_compute; reflexivity. Qed.

(** Finding: when the transport fails to publish, not even the sockets of the emitting server are reached. *)
Theorem C38_publish_error_refuted : ∃ (uids : gset string) (h : list cop) (n : string) (op : cop) (nd : node) (id : sid) (opts : option bopts),
  Forall (cop_ok uids) (h ++ [op]) ∧ ¬ local_opts opts ∧ op = CCall n (GBroadcast EVENT false [VStr "ev"]) opts None false ord_std ord_std orders_std ∧
  cl_nodes (crun false uids h) !! n = Some nd ∧ matches nd (opt_rooms opts) (opt_except opts) id ∧
  cl_nodes (crun false uids (h ++ [op])) = cl_nodes (crun false uids h).
Proof.
  exact publish_error.
Qed.
Print Assumptions C38_publish_error_refuted.

(** ** C39 Broadcast options survive the cluster hop *)
Theorem C39_options_survive : ∀ (A : Type) (o1 o2 : order) (opts : option bopts) (s : nspace A) (id : sid), order_ok o1 → order_ok o2 →
  let opts' := Some (decode_options (Some (encode_options o1 o2 opts))) in
  matches s (opt_rooms opts') (opt_except opts') id ↔ matches s (opt_rooms opts) (opt_except opts) id.
Proof. exact @opts_matches_hop. Qed.
Print Assumptions C39_options_survive.
Theorem C39_parts : ∀ (o1 o2 : order) (opts : option bopts), order_ok o1 → order_ok o2 →
  opt_rooms (Some (decode_options (Some (encode_options o1 o2 opts)))) = opt_rooms opts ∧
  opt_except (Some (decode_options (Some (encode_options o1 o2 opts)))) = opt_except opts ∧
  bo_flags (decode_options (Some (encode_options o1 o2 opts))) = (o ← opts; bo_flags o).
Proof. exact opts_rooms_hop. Qed.
Print Assumptions C39_parts.
Example C39_example : encode_options ord_rev ord_std (ex_to true) = POpts (ord_rev {["r"; "q"]}) ["b2"] (Some (Flags false false false true false false None false)) ∧
  length (ord_rev {["r"; "q"]}) = 2 ∧ opt_rooms (Some (decode_options (Some (encode_options ord_rev ord_std (ex_to true))))) = {["q"; "r"]}.
Proof. split_and!; [vm_compute; reflexivity|by_eval|by_eval]. Qed.

(** ** C42 Cluster bulk operations
    The call acts on the calling server; every other server is sent the operation once (none with Local),
    and handling it acts on that server only. *)
Theorem C42_caller : ∀ (csr : bool) (uids : gset string) (h1 : list cop) (n : string) (g : gop) (opts : option bopts) (pub : option string)
    (echo : bool) (e1 e2 : order) (os : orders), let op := CCall n g opts pub echo e1 e2 os in
  Forall (cop_ok uids) (h1 ++ [op]) → (∀ ty ack data, g ≠ GBroadcast ty ack data) →
  (∃ nd nd', cl_nodes (crun csr uids h1) !! n = Some nd ∧ cl_nodes (crun csr uids (h1 ++ [op])) !! n = Some nd' ∧ bulk_effect g opts nd nd') ∧
  (∀ m, m ≠ n → cl_nodes (crun csr uids (h1 ++ [op])) !! m = cl_nodes (crun csr uids h1) !! m).
Proof. exact bulk_call. Qed.
Print Assumptions C42_caller.
Theorem C42_sent_once : ∀ (csr : bool) (uids : gset string) (h1 : list cop) (n : string) (g : gop) (opts : option bopts) (pub : option string)
    (echo : bool) (e1 e2 : order) (os : orders) (h2 : list cop) (m : string), let op := CCall n g opts pub echo e1 e2 os in
  Forall (cop_ok uids) (h1 ++ op :: h2) →
  in_flight (crun csr uids (h1 ++ op :: h2)) m (length h1) + deliveries csr uids (h1 ++ [op]) h2 m (length h1) =
  if decide (kept_local opts = false ∧ is_Some pub ∧ m ∈ uids ∧ (echo = true ∨ m ≠ n)) then 1 else 0.
Proof. exact fate_call. Qed.
Print Assumptions C42_sent_once.
Theorem C42_handled : ∀ (csr : bool) (uids : gset string) (h1 : list cop) (n : string) (g : gop) (opts : option bopts) (off : string)
    (echo : bool) (e1 e2 : order) (os : orders) (h2 : list cop) (op' : cop) (m : string),
  let op := CCall n g opts (Some off) echo e1 e2 os in
  let s := crun csr uids (h1 ++ op :: h2) in
  let s' := crun csr uids (h1 ++ op :: h2 ++ [op']) in
  Forall (cop_ok uids) (h1 ++ op :: h2 ++ [op']) → (∀ ty ack data, g ≠ GBroadcast ty ack data) → delivers s op' m (length h1) →
  (m ≠ n → ∃ nd nd', cl_nodes s !! m = Some nd ∧ cl_nodes s' !! m = Some nd' ∧ bulk_effect g opts nd nd') ∧
  (∀ m', m' ≠ m ∨ m = n → cl_nodes s' !! m' = cl_nodes s !! m').
Proof. exact bulk_deliver. Qed.
Print Assumptions C42_handled.
Example C42_example : let nodes g loc := (λ nd, elements (dom (ns_sockets nd))) <$> cl_nodes (crun false ex_uids (ex_setup ++ ex_call g loc :: ex_rest)) in
  Forall (cop_ok ex_uids) (ex_setup ++ ex_call GDisconnect false :: ex_rest) ∧
  (nodes GDisconnect false !! "A", nodes GDisconnect false !! "B", nodes GDisconnect false !! "C") = (Some ["a2"], Some ["b2"], Some []) ∧
  (nodes GDisconnect true !! "A", length <$> nodes GDisconnect true !! "B", nodes GDisconnect true !! "C") = (Some ["a2"], Some 2, Some ["c1"]).
Proof. cbv zeta. split; [apply ex_ok|]. split; vm_compute; reflexivity. Qed.

(** ** C41 Heartbeat membership
    [live]: the last message of the server is not a farewell and no check since found it silent for longer
    than the timeout; never the server itself or the emitter. *)
Theorem C41_server_count : ∀ (self : string) (timeout : Z) (h : list hev), Forall hev_ok h →
  ∃ l, NoDup l ∧ (∀ u, u ∈ l ↔ live self timeout h u) ∧ server_count (hrun self timeout h) = S (length l).
Proof. exact count_live. Qed.
Print Assumptions C41_server_count.
Theorem C41_members : ∀ (self : string) (timeout : Z) (h : list hev) (u : string), Forall hev_ok h →
  u ∈ dom (hb_nodes (hrun self timeout h)) ↔ live self timeout h u.
Proof. exact known_iff_live. Qed.
Print Assumptions C41_members.
(** A server that says no farewell and is never silent for longer than the timeout at a check stays. *)
Theorem C41_regular : ∀ (self : string) (timeout : Z) (a : list hev) (t : Z) (o : order) (u : string) (m : cmessage) (b : list hev),
  Forall hev_ok (a ++ HMessage t o u m :: b) → u ≠ self → u ≠ "emitter" → m ≠ MClose → (∀ t' o', HMessage t' o' u MClose ∉ b) →
  (∀ b1 t' on o' b2 t0 m0, b = b1 ++ HCheck t' on o' :: b2 → last_heard (a ++ HMessage t o u m :: b1) u t0 m0 → (t' - t0 ≤ timeout)%Z) →
  u ∈ dom (hb_nodes (hrun self timeout (a ++ HMessage t o u m :: b))).
Proof. exact regular_known. Qed.
Print Assumptions C41_regular.
Theorem C41_silent : ∀ (self : string) (timeout : Z) (h : list hev) (t : Z) (on o : order) (u : string) (t0 : Z) (m : cmessage),
  Forall hev_ok (h ++ [HCheck t on o]) → last_heard h u t0 m → (timeout < t - t0)%Z → u ∉ dom (hb_nodes (hrun self timeout (h ++ [HCheck t on o]))).
Proof. exact silent_unknown. Qed.
Print Assumptions C41_silent.
Theorem C41_closed : ∀ (self : string) (timeout : Z) (h : list hev) (t : Z) (o : order) (u : string),
  Forall hev_ok (h ++ [HMessage t o u MClose]) → u ∉ dom (hb_nodes (hrun self timeout (h ++ [HMessage t o u MClose]))).
Proof. exact closed_unknown. Qed.
Print Assumptions C41_closed.
Theorem C41_never_self : ∀ (self : string) (timeout : Z) (h : list hev) (u : string), Forall hev_ok h →
  u ∈ dom (hb_nodes (hrun self timeout h)) → u ≠ self ∧ u ≠ "emitter".
Proof. exact known_not_self. Qed.
Print Assumptions C41_never_self.
Example C41_example : Forall hev_ok ex_before ∧ (∀ u, live "A" 10 ex_before u ↔ u = "B" ∨ u = "C") ∧ server_count (hrun "A" 10 ex_before) = 3 ∧
  server_count (hrun "A" 10 (ex_before ++ [HCheck 11 ord_std ord_std])) = 2 ∧ server_count (hrun "A" 10 (ex_before ++ [HCheck 12 ord_std ord_std])) = 1.
Proof. split; [exact ex_before_ok|]. split; [exact ex_live|]. split_and!; vm_compute; reflexivity. Qed.

(** ** C40 Cluster requests complete exactly once
    Request [e] with callback [cb] is made after [h1]; [settled]: the server answered, or left the cluster.
    [gathered]: everything received in answer. *)
Theorem C40_outcome_partial : ∀ (self : string) (timeout : Z) (h1 : list hev) (e : hev) (h2 : list hev) (cb : nat) (rid : string) (local : list value) (isf : bool),
  e = HFetch false cb rid local ∧ isf = true ∨ e = HEmit cb rid ∧ local = [] ∧ isf = false →
  Forall hev_ok (h1 ++ e :: h2) → fresh_request h1 e h2 → (∃ u, live self timeout h1 u) →
  let all_settled a := ∀ u, live self timeout h1 u → settled self timeout rid (h1 ++ [e]) a u in
  let calls := calls_of (hrun self timeout (h1 ++ e :: h2)) cb in
  (∀ l, calls = [CalledOk l] ↔ ∃ a x b, h2 = a ++ x :: b ∧ ¬ all_settled a ∧ all_settled (a ++ [x]) ∧ HTimer rid ∉ a ∧ l = local ++ gathered rid (a ++ [x])) ∧
  (∀ l, calls = [CalledErr l] ↔ ∃ a b, h2 = a ++ HTimer rid :: b ∧ ¬ all_settled a ∧ HTimer rid ∉ a ∧ l = if isf then [] else gathered rid a) ∧
  (calls = [] ∨ (∃ l, calls = [CalledOk l]) ∨ (∃ l, calls = [CalledErr l])).
Proof. exact request_done. Qed.
Print Assumptions C40_outcome_partial.
(** Without other servers, or with Local, the answer is immediate. *)
Theorem C40_alone : ∀ (self : string) (timeout : Z) (h1 : list hev) (cb : nat) (rid : string) (local : list value) (loc : bool) (h2 : list hev),
  let e := HFetch loc cb rid local in
  Forall hev_ok (h1 ++ e :: h2) → fresh_request h1 e h2 → loc = true ∨ (∀ u, ¬ live self timeout h1 u) →
  calls_of (hrun self timeout (h1 ++ e :: h2)) cb = [CalledOk local].
Proof. exact request_alone. Qed.
Print Assumptions C40_alone.
Example C40_example : Forall hev_ok (ex_before ++ ex_fetch :: ex_after) ∧ fresh_request ex_before ex_fetch ex_after ∧ (∃ u, live "A" 10 ex_before u) ∧
  calls_of (hrun "A" 10 (ex_before ++ ex_fetch :: ex_after)) 7 = [CalledOk [VStr "a1"; VStr "b1"; VStr "b2"]] ∧
  calls_of (hrun "A" 10 (ex_before ++ ex_fetch :: take 3 ex_after)) 7 = [] ∧
  calls_of (hrun "A" 10 (ex_before ++ ex_fetch :: take 3 ex_after ++ [HTimer "q"])) 7 = [CalledErr []].
Proof. split; [exact ex_req_ok|]. split; [exact ex_fresh|]. split; [exists "B"; apply ex_live; by left|]. split_and!; vm_compute; reflexivity. Qed.

(** Overlapping handlers: under every schedule a result is reported only when every server asked has
    answered, its answer being included, or left... *)
Theorem C40_overlapping_complete : ∀ (isf : bool) (N : gset string) (local : list value) (ts : list rthread) (sched : list nat) (l : list value),
  N ≠ ∅ → CalledOk l ∈ rs_calls (rrun isf N local ts sched).1 → ∀ u, u ∈ N → TLeave u ∈ ts ∨ ∃ k, TAnswer u k ∈ ts ∧ k ⊆ l.
Proof. exact ok_covered. Qed.
Print Assumptions C40_overlapping_complete.
(** ... and if every server answers or leaves and all handlers finish, the callback was called... *)
Theorem C40_overlapping_called : ∀ (isf : bool) (N : gset string) (local : list value) (ts : list rthread) (sched : list nat),
  N ≠ ∅ → (∀ u, u ∈ N → ∃ t, t ∈ ts ∧ target t u) →
  (∀ t p, (t, p) ∈ (rrun isf N local ts sched).2 → p = RDone) → rs_calls (rrun isf N local ts sched).1 ≠ [].
Proof. exact called_at_least_once. Qed.
Print Assumptions C40_overlapping_called.
(** ... what is reported are the local sockets followed by values of answers (nothing, if a fetch times out), an error by the timer only... *)
Theorem C40_overlapping_told : ∀ (isf : bool) (N : gset string) (local : list value) (ts : list rthread) (sched : list nat) (c : ccall),
  c ∈ rs_calls (rrun isf N local ts sched).1 →
  let nothing_else l := local `prefix_of` l ∧ ∀ v, v ∈ l → v ∈ local ∨ ∃ u k, TAnswer u k ∈ ts ∧ v ∈ k in
  match c with CalledOk l => nothing_else l | CalledErr l => TTimeout ∈ ts ∧ if isf then l = [] else nothing_else l | _ => False end.
Proof. exact (λ isf N local ts sched c H, proj1 (Forall_forall _ _) (told_run isf N local ts sched) c H). Qed.
Print Assumptions C40_overlapping_told.
(** ... and a timer that has not fired when a result is reported never reports an error... *)
Theorem C40_overlapping_stopped : ∀ (isf : bool) (N : gset string) (local : list value) (ts : list rthread) (s1 s2 : list nat) (l : list value),
  CalledOk l ∈ rs_calls (rrun isf N local ts s1).1 → (∀ p, (TTimeout, p) ∈ (rrun isf N local ts s1).2 → p = RLoad) →
  ∀ e, CalledErr e ∉ rs_calls (rrun isf N local ts (s1 ++ s2)).1.
Proof. exact stopped. Qed.
Print Assumptions C40_overlapping_stopped.
(** ... nor do responses, departures or the timer do anything that begin after a result or an error is reported and dealt with... *)
Theorem C40_overlapping_over : ∀ (isf : bool) (N : gset string) (local : list value) (ts : list rthread) (s1 s2 : list nat),
  rs_calls (rrun isf N local ts s1).1 ≠ [] → (∀ t p, (t, p) ∈ (rrun isf N local ts s1).2 → p = RLoad ∨ p = RDone) →
  rs_calls (rrun isf N local ts (s1 ++ s2)).1 = rs_calls (rrun isf N local ts s1).1.
Proof. exact over. Qed.
Print Assumptions C40_overlapping_over.
(** "B" answers; the timer fires between the report and the removal of the request: nothing happens.  Or "B" is late: a fetch reports nothing, an
    emission what has come. *)
Example C40_overlapping_example : let ts := [TAnswer "B" [VStr "b1"]; TTimeout] in let run isf := rrun isf {["B"; "C"]} [VStr "a1"] ts in
  rs_calls (rrun false {["B"]} [VStr "a1"] ts [0; 0; 0; 0; 0; 0]).1 = [CalledOk [VStr "a1"; VStr "b1"]] ∧
  (rrun false {["B"]} [VStr "a1"] ts [0; 0; 0; 0; 0; 0]).2 = [(TAnswer "B" [VStr "b1"], RUnstore); (TTimeout, RLoad)] ∧
  rs_calls (rrun false {["B"]} [VStr "a1"] ts [0; 0; 0; 0; 0; 0; 1; 1; 1; 1]).1 = [CalledOk [VStr "a1"; VStr "b1"]] ∧
  rs_calls (run true [0; 0; 0; 0; 1; 1; 1; 1]).1 = [CalledErr []] ∧ rs_calls (run false [0; 0; 0; 0; 1; 1; 1; 1]).1 = [CalledErr [VStr "a1"; VStr "b1"]] ∧
  (run true [1; 1; 1; 1]).2 = [(TAnswer "B" [VStr "b1"], RLoad); (TTimeout, RDone)] ∧ rs_calls (run true [1; 1; 1; 1; 0; 0; 0; 0; 0; 0]).1 = [CalledErr []].
Proof. split_and!; vm_compute; reflexivity. Qed.
(** ... but possibly twice: the last two answers both find nothing missing... *)
Theorem C40_called_twice_refuted : ∃ (N : gset string) (local : list value) (ts : list rthread) (sched : list nat),
  N ≠ ∅ ∧ rs_calls (rrun true N local ts sched).1 = [CalledOk [VStr "b1"; VStr "c1"]; CalledOk [VStr "b1"; VStr "c1"]].
Proof.
  exists {["B"; "C"]}, [], [TAnswer "B" [VStr "b1"]; TAnswer "C" [VStr "c1"]], [0; 1; 0; 1; 0; 1; 0; 1; 0; 1; 0; 1; 0; 1]. split; [by_eval|vm_compute; reflexivity].
Qed.
Print Assumptions C40_called_twice_refuted.
(** ... or once with a timeout error and once with a result. *)
Theorem C40_error_and_result_refuted : ∃ (N : gset string) (local : list value) (ts : list rthread) (sched : list nat),
  N ≠ ∅ ∧ rs_calls (rrun true N local ts sched).1 = [CalledErr []; CalledOk [VStr "b1"]].
Proof.
  exists {["B"]}, [], [TAnswer "B" [VStr "b1"]; TTimeout], [0; 1; 1; 1; 0; 0; 0; 0; 0; 0; 1]. split; [by_eval|vm_compute; reflexivity].
Qed.
Print Assumptions C40_error_and_result_refuted.
(** A duplicated response is reported twice. *)
Theorem C40_duplicates_refuted : ∃ (h1 : list hev) (e : hev) (h2 : list hev), Forall hev_ok (h1 ++ e :: h2) ∧ fresh_request h1 e h2 ∧
  calls_of (hrun "A" 10 (h1 ++ e :: h2)) 7 = [CalledOk [VStr "a1"; VStr "b1"; VStr "b1"; VStr "c1"]].
Proof.
  exists ex_before, ex_fetch, [HResponse "B" (RSockets "q" [VStr "b1"]); HResponse "B" (RSockets "q" [VStr "b1"]); HResponse "C" (RSockets "q" [VStr "c1"])].
  split_and!; [| |vm_compute; reflexivity].
  - apply Forall_app. split; [exact ex_before_ok|]. by repeat constructor.
  - intros x cb rid cb' rid' Hx _ Hr. exfalso.
    assert (Forall (λ x, req_of x = None) (ex_before ++ [HResponse "B" (RSockets "q" [VStr "b1"]); HResponse "B" (RSockets "q" [VStr "b1"]); HResponse "C" (RSockets "q" [VStr "c1"])])) as Hn by (repeat constructor).
    rewrite Forall_forall in Hn. by rewrite (Hn x Hx) in Hr.
Qed.
Print Assumptions C40_duplicates_refuted.
(** The adapter without heartbeat asks nobody: its ServerCount() is that of the in-memory adapter, 1,
    also when an extending adapter overrides it. *)
Theorem C40_base_refuted : ∀ (cb : nat) (rid : string) (local : list value) (s : bstate),
  let s' := base_fetch base_server_count false cb rid local s in
  bs_calls s' = bs_calls s ++ [(cb, CalledOk local)] ∧ bs_pub s' = bs_pub s ∧ bs_reqs s' = bs_reqs s.
Proof. intros. done. Qed.
Print Assumptions C40_base_refuted.

(** ** C43 Responses are processed whichever entry point delivers them
    Missing for the full claim: the answers to requests of the adapter with heartbeat (see the refutation). *)
Theorem C43_base : ∀ (self u : string) (r : cresp) (s : bstate), u ≠ self → base_on_message self u (MResponse r) s = base_on_response r s.
Proof. intros self u r s Hu. unfold base_on_message. by rewrite decide_False. Qed.
Print Assumptions C43_base.
Theorem C43_acks_partial : ∀ (self u : string) (t : Z) (o : order) (r : cresp) (s : hstate), u ≠ self →
  (∃ rid n, r = RClientCount rid n) ∨ (∃ rid args, r = RAck rid args) →
  hb_base (on_message self t o u (MResponse r) s) = hb_base (on_response u r s) ∧ hb_custom (on_message self t o u (MResponse r) s) = hb_custom (on_response u r s).
Proof. exact acks_same. Qed.
Print Assumptions C43_acks_partial.
(** Answers to requests that come through OnMessage are dropped, in every reachable state. *)
Theorem C43_dropped_refuted : ∀ (self : string) (timeout : Z) (h : list hev) (t : Z) (o : order) (u : string) (r : cresp),
  (∃ rid l, r = RSockets rid l ∨ r = REmitted rid l) →
  hb_base (hrun self timeout (h ++ [HMessage t o u (MResponse r)])) = hb_base (hrun self timeout h) ∧
  hb_custom (hrun self timeout (h ++ [HMessage t o u (MResponse r)])) = hb_custom (hrun self timeout h).
Proof. exact via_message_dropped. Qed.
Print Assumptions C43_dropped_refuted.
(** The same answers succeed through one entry point and time out through the other. *)
Example C43_example : let via f := ex_before ++ [ex_fetch; f "B" (RSockets "q" [VStr "b1"]); f "C" (RSockets "q" [VStr "c1"]); HTimer "q"] in
  calls_of (hrun "A" 10 (via HResponse)) 7 = [CalledOk [VStr "a1"; VStr "b1"; VStr "c1"]] ∧
  calls_of (hrun "A" 10 (via (λ u r, HMessage 5 ord_std u (MResponse r)))) 7 = [CalledErr []].
Proof. split; vm_compute; reflexivity. Qed.
