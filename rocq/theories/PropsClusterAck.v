(** Property C55: broadcasts with acknowledgement in a cluster. *)
From Verif Require Import Base GoTypes Rooms Adapter AdapterSpec Cluster ClusterSpec BcastAck BcastAckSpec ClusterAck ClusterAckSpec ClusterAckReply ClusterAckExamples.

(** ** C55 Broadcast with acknowledgement across a cluster
    Call number [k] is an Emit with acknowledgement on server [n], its request id is [rid].
    A server writes the packet to the sockets that match when it handles the request, once each: the emitting
    server at the call, another server when the request arrives, which happens once; nobody else does. *)
Theorem C55_targets : ∀ (uids : gset string) (h : list aop) (k : nat) (m n rid : string) (opts : option bopts) (pub echo : bool) (e1 e2 : order) (os : orders),
  Forall (aop_ok uids) h → rids_ok h → m ∈ uids → h !! k = Some (ACall n rid opts pub echo e1 e2 os) →
  m = n ∨ (kept_local opts = false ∧ pub = true) → requests_to (arun uids h) k m = 0 →
  ∃ j nd, k ≤ j ∧ j < length h ∧ (m = n → j = k) ∧ ac_nodes (arun uids (take j h)) !! m = Some nd ∧
    ∀ id, id ∈ (sent (arun uids h) m k).*1 ↔ matches (an_ns nd) (opt_rooms opts) (opt_except opts) id.
Proof. exact targets. Qed.
Print Assumptions C55_targets.
Theorem C55_once : ∀ (uids : gset string) (h : list aop) (k : nat) (m n rid : string) (opts : option bopts) (pub echo : bool) (e1 e2 : order) (os : orders),
  Forall (aop_ok uids) h → rids_ok h → m ∈ uids → h !! k = Some (ACall n rid opts pub echo e1 e2 os) → let s := arun uids h in
  NoDup (sent s m k).*1 ∧ requests_to s k m ≤ 1 ∧ (requests_to s k m = 1 → sent s m k = []) ∧
  (m ≠ n → kept_local opts = true ∨ pub = false → sent s m k = []).
Proof. exact once. Qed.
Print Assumptions C55_once.

(** Every server asked reports, once, how many sockets it wrote the packet to; without the expiry of the
    request the report is on its way or has reached the callback. *)
Theorem C55_counts : ∀ (uids : gset string) (h : list aop) (k : nat) (m n rid : string) (opts : option bopts) (pub echo : bool) (e1 e2 : order) (os : orders),
  Forall (aop_ok uids) h → rids_ok h → m ∈ uids → h !! k = Some (ACall n rid opts pub echo e1 e2 os) → let s := arun uids h in
  let asked := if decide (m = n) then 1 else if negb (kept_local opts) && pub then 1 else 0 in
  requests_to s k m + counts_way s k m + length (counts_from s k m) ≤ asked ∧
  (∀ c, c ∈ counts_from s k m → c = length (sent s m k)) ∧
  (m = n ∨ (∀ j, k < j → h !! j ≠ Some (AExpire n rid)) → requests_to s k m + counts_way s k m + length (counts_from s k m) = asked) ∧
  (m = n → counts_from s k m = [length (sent s m k)]).
Proof. exact reports. Qed.
Print Assumptions C55_counts.

(** A notified socket answers at most once, and its answer reaches the callback at most once; without the expiry
    of the request it is not lost.  Nobody else's answer does, and it is the answer of that socket to that packet. *)
Theorem C55_answers : ∀ (uids : gset string) (h : list aop) (k : nat) (m : string) (id : sid) (n rid : string) (opts : option bopts) (pub echo : bool) (e1 e2 : order) (os : orders),
  Forall (aop_ok uids) h → rids_ok h → h !! k = Some (ACall n rid opts pub echo e1 e2 os) → let s := arun uids h in
  let total := (if decide (id ∈ (waiting s m k).*1) then 1 else 0) + answers_way s k m id + length (answers_from s k m id) in
  let notified := if decide (id ∈ (sent s m k).*1) then 1 else 0 in
  total ≤ notified ∧ (m = n ∨ (∀ j, k < j → h !! j ≠ Some (AExpire n rid)) → total = notified).
Proof. exact answers. Qed.
Print Assumptions C55_answers.
Theorem C55_source : ∀ (uids : gset string) (h : list aop) (k : nat) (m : string) (id : sid) (a : list value),
  Forall (aop_ok uids) h → rids_ok h → a ∈ answers_from (arun uids h) k m id →
  ∃ h1 pid h2, h = h1 ++ AClient m id pid a :: h2 ∧ (id, pid) ∈ sent (arun uids h1) m k.
Proof. exact source. Qed.
Print Assumptions C55_source.

(** After the expiry of the request nothing of other servers reaches the callback. *)
Theorem C55_expired : ∀ (uids : gset string) (h : list aop) (k j : nat) (m n rid : string) (opts : option bopts) (pub echo : bool) (e1 e2 : order) (os : orders),
  Forall (aop_ok uids) h → rids_ok h → h !! k = Some (ACall n rid opts pub echo e1 e2 os) → k < j → h !! j = Some (AExpire n rid) → m ≠ n →
  counts_from (arun uids h) k m = counts_from (arun uids (take (S j) h)) k m ∧
  ∀ id, answers_from (arun uids h) k m id = answers_from (arun uids (take (S j) h)) k m id.
Proof. exact expired_later. Qed.
Print Assumptions C55_expired.

(** The user's callback, when ServerCount() is the number of servers.  [ls] is any schedule of the handlers
    of this Emit in which these counts and answers come in ([BcastAck.v]). With answers of one argument
    (C13): it is called without error only if every server reported and every notified socket of the
    cluster answered, and it is given exactly these answers. *)
Theorem C55_ok_complete : ∀ (uids : gset string) (h : list aop) (k : nat) (ls : list blabel) (b : bst) (l : list value),
  Forall (aop_ok uids) h → rids_ok h → let s := arun uids h in
  bexec (size uids) false ls bst0 = Some b → lcounts ls = counts_of (events s k) → lreplies ls = replies_of (events s k) →
  (∀ a, a ∈ lreplies ls → length a = 1) → BOk l ∈ b_calls b →
  (∀ m, m ∈ uids → counts_from s k m = [length (sent s m k)] ∧ ∀ id, id ∈ (sent s m k).*1 → ∃ a, answers_from s k m id = [a]) ∧
  l ≡ₚ concat (elements uids ≫= λ m, (sent s m k).*1 ≫= answers_from s k m).
Proof. exact ack_result. Qed.
Print Assumptions C55_ok_complete.

(** Once everything arrived, before any timer fired, it has been called exactly once, with all answers. *)
Theorem C55_complete : ∀ (uids : gset string) (h : list aop) (k : nat) (n rid : string) (opts : option bopts) (echo : bool) (e1 e2 : order) (os : orders),
  Forall (aop_ok uids) h → rids_ok h → let s := arun uids h in
  h !! k = Some (ACall n rid opts true echo e1 e2 os) → kept_local opts = false →
  (∀ j, k < j → h !! j ≠ Some (AExpire n rid)) → ATimer k ∉ h →
  (∀ m, m ∈ uids → requests_to s k m = 0 ∧ counts_way s k m = 0 ∧ waiting s m k = [] ∧ ∀ id, answers_way s k m id = 0) →
  one_arg (events s k) →
  ∃ l, b_calls (bserial (size uids) false (events s k)) = [BOk l] ∧ l ≡ₚ concat (elements uids ≫= λ m, (sent s m k).*1 ≫= answers_from s k m).
Proof. exact everything_arrived. Qed.
Print Assumptions C55_complete.

(** Finding: with the Local flag only the emitting server reports, but the callback waits for ServerCount()
    reports (broadcast-operator.go:249).  In a cluster of two or more it is never called without error, even
    if every notified socket answers.  The same happens when the transport fails to publish. *)
Theorem C55_local_refuted : ∀ (uids : gset string) (h : list aop) (k : nat) (n rid : string) (opts : option bopts) (pub echo : bool) (e1 e2 : order) (os : orders)
    (ls : list blabel) (b : bst) (l : list value),
  Forall (aop_ok uids) h → rids_ok h → h !! k = Some (ACall n rid opts pub echo e1 e2 os) → kept_local opts = true ∨ pub = false → 2 ≤ size uids →
  bexec (size uids) false ls bst0 = Some b → lcounts ls = counts_of (events (arun uids h) k) → BOk l ∉ b_calls b.
Proof. exact never_complete. Qed.
Print Assumptions C55_local_refuted.
(** Finding: when a server is not known yet (ServerCount() is too small), the callback is called without its
    sockets, although they receive the packet and answer. *)
Theorem C55_unknown_server_refuted : ∃ (uids : gset string) (h : list aop) (k : nat), Forall (aop_ok uids) h ∧ rids_ok h ∧ size uids = 2 ∧
  (sent (arun uids h) "B" k).*1 = ["b2"; "b1"] ∧ answers_from (arun uids h) k "B" "b1" = [[VStr "y"]] ∧
  b_calls (bserial 1 false (events (arun uids h) k)) = [BOk [VStr "x"]].
Proof. exists ak_uids, ak_h, 9. split; [apply ak_h_ok|]. split; [apply ak_h_ok|]. split_and!; vm_compute; reflexivity. Qed.
Print Assumptions C55_unknown_server_refuted.

Example C55_example : let s := arun ak_uids ak_h in Forall (aop_ok ak_uids) ak_h ∧ rids_ok ak_h ∧
  sent s "A" 9 = [("a1", 0)] ∧ sent s "B" 9 = [("b2", 0); ("b1", 0)] ∧
  events s 9 = [EbCount 1; EbFinish; EbReply [VStr "x"]; EbReply [VStr "y"]; EbCount 2; EbReply [VStr "z"]] ∧
  (requests_to s 9 "B" = 0 ∧ counts_way s 9 "B" = 0 ∧ waiting s "B" 9 = [] ∧ ac_net s = []) ∧
  b_calls (bserial (size ak_uids) false (events s 9)) = [BOk [VStr "x"; VStr "y"; VStr "z"]].
Proof. cbv zeta. split; [apply ak_h_ok|]. split; [apply ak_h_ok|]. split_and!; vm_compute; reflexivity. Qed.
Example C55_expired_example : let s := arun ak_uids ak_late in Forall (aop_ok ak_uids) ak_late ∧ rids_ok ak_late ∧
  ak_late !! 17 = Some (AExpire "A" "q") ∧ length ak_late = 19 ∧ sent s "B" 9 = [("b2", 0); ("b1", 0)] ∧
  answers_from s 9 "B" "b1" = [[VStr "y"]] ∧ answers_from s 9 "B" "b2" = [] ∧ waiting s "B" 9 = [] ∧ answers_way s 9 "B" "b2" = 0 ∧
  b_calls (bserial (size ak_uids) false (events s 9)) = [].
Proof. cbv zeta. split; [apply ak_late_ok|]. split; [apply ak_late_ok|]. split_and!; vm_compute; reflexivity. Qed.
Example C55_local_example : let h := ak_setup ++ [ak_call true; AClient "A" "a1" 0 [VStr "x"]] in let s := arun ak_uids h in
  kept_local (ak_to true) = true ∧ sent s "A" 9 = [("a1", 0)] ∧ waiting s "A" 9 = [] ∧ size ak_uids = 2 ∧
  b_calls (bserial (size ak_uids) false (events s 9)) = [] ∧ b_calls (bserial (size ak_uids) false (events s 9 ++ [EbTimer])) = [BErr [VStr "x"]].
Proof. cbv zeta. split_and!; vm_compute; reflexivity. Qed.
