(** Property C74: a connection with several sockets under concurrency. *)
From Verif Require Import Base LifeConc LifeConcSpec ConnConc ConnConcSpec ConnConcProofs ConnMore.

(** ** C74 A connection with several sockets
    [crun s ts sched]: the connection after any interleaving of the calls [ts], some of which (the close of the transport, Disconnect(true),
    Server.Close) go over the tables of sockets while other calls change these. [sock]: one socket; [log_of x]: its events. *)
(** For each socket it is an execution of the lifecycle of one socket that is alone on its connection (LifeConc), with the same state, the same events
    by the same calls, and calls that have returned when those of the connection have. A Disconnect(true) of another socket that did something is no
    Join of no room. *)
Theorem C74_one : ∀ (s : cstate) (ts : list ccall) (sched : list (nat * option sid)) (x : sid), ∃ us sched', Forall2 (seen_as x) ts us ∧
  lf_state (lc_run (sock s x) us sched') = sock (cc_state (crun s ts sched)) x ∧ lf_log (lc_run (sock s x) us sched') = log_of x (crun s ts sched) ∧
  (∀ i t p, cc_calls (crun s ts sched) !! i = Some (t, p) → cover p = true → ∃ u, lf_calls (lc_run (sock s x) us sched') !! i = Some (u, QDone)) ∧
  ∀ i t, cc_calls (crun s ts sched) !! i = Some (t, MDone) → us !! i ≠ Some (LcJoin ∅).
Proof. exact view. Qed.
Print Assumptions C74_one.
(** When the transport closes or the server does, every connected socket ends closed, out of all tables and out of every room that no concurrent Join
    names, and disconnect is emitted for it; whatever is called on it and on the other sockets, and while these are admitted or closed. *)
Theorem C74_closed : ∀ (s : cstate) (ts : list ccall) (sched : list (nat * option sid)) (x : sid) (t : ccall),
  settled (sock s x) → (∀ b, CConnect x b ∉ ts) → t ∈ ts → must_close x t → creturned (crun s ts sched) →
  gone (sock (cc_state (crun s ts sched)) x) ∧ (∀ r, r ∈ ls_rooms (sock (cc_state (crun s ts sched)) x) → ∃ rs, CJoin x rs ∈ ts ∧ r ∈ rs) ∧
  1 ≤ byes_of x (crun s ts sched).
Proof. exact closed. Qed.
Print Assumptions C74_closed.
(** The same for Disconnect(true) of any socket that was found connected. *)
Theorem C74_all : ∀ (s : cstate) (ts : list ccall) (sched : list (nat * option sid)) (x y : sid),
  settled (sock s x) → (∀ b, CConnect x b ∉ ts) → (CDisconnectAll y, MDone) ∈ cc_calls (crun s ts sched) → creturned (crun s ts sched) →
  gone (sock (cc_state (crun s ts sched)) x) ∧ (∀ r, r ∈ ls_rooms (sock (cc_state (crun s ts sched)) x) → ∃ rs, CJoin x rs ∈ ts ∧ r ∈ rs) ∧
  1 ≤ byes_of x (crun s ts sched).
Proof. exact closed_all. Qed.
Print Assumptions C74_all.
(** Each call emits disconnecting and then disconnect at most once per socket; disconnect comes at most as often as there are calls that can close the
    socket. *)
Theorem C74_call : ∀ (s : cstate) (ts : list ccall) (sched : list (nat * option sid)) (x : sid), settled (sock s x) → (∀ b, CConnect x b ∉ ts) →
  (∀ i, ∃ r, ends_of x i (crun s ts sched) `prefix_of` [VDisconnecting r; VDisconnect r]) ∧ byes_of x (crun s ts sched) ≤ length (filter (may_close x) ts).
Proof. exact (λ s ts sched x H Hn, conj (λ i, each s ts sched x i H Hn) (counted s ts sched x H Hn)). Qed.
Print Assumptions C74_call.
(** A socket that is refused, or whose connection has closed, is never connected, whatever becomes of the others. *)
Theorem C74_refused : ∀ (s : cstate) (ts : list ccall) (sched : list (nat * option sid)) (x : sid) (b : bool),
  fresh (sock s x) → CConnect x b ∈ ts → (∀ b', CConnect x b' ∈ ts → b' = b) → cs_open s = false ∨ b = true →
  ls_connected (sock (cc_state (crun s ts sched)) x) = false ∧ (∀ e, e ∈ log_of x (crun s ts sched) → e.2 = VDenied) ∧
  (creturned (crun s ts sched) → gone (sock (cc_state (crun s ts sched)) x)).
Proof. exact refused. Qed.
Print Assumptions C74_refused.
(** A socket is admitted completely if nothing that can close it is called, whatever is done with the others. *)
Theorem C74_admitted : ∀ (s : cstate) (ts : list ccall) (sched : list (nat * option sid)) (x : sid),
  fresh (sock s x) → cs_open s = true → (∀ t, t ∈ ts → ¬ may_close x t) → (∀ b, CConnect x b ∉ ts) → creturned (crun s (CConnect x false :: ts) sched) →
  settled (sock (cc_state (crun s (CConnect x false :: ts) sched)) x) ∧ (log_of x (crun s (CConnect x false :: ts) sched)).*2 = [VPacket; VConnect; VConnection].
Proof. exact admitted. Qed.
Print Assumptions C74_admitted.
(** It is then in its own room, in the rooms it was in before and in those that Join calls on it name, and in no other; for every room that no
    concurrent Leave on it names. *)
Theorem C74_rooms : ∀ (s : cstate) (ts : list ccall) (sched : list (nat * option sid)) (x : sid) (r : room),
  fresh (sock s x) → cs_open s = true → (∀ t, t ∈ ts → ¬ may_close x t) → (∀ b, CConnect x b ∉ ts) → CLeave x r ∉ ts → creturned (crun s (CConnect x false :: ts) sched) →
  (r ∈ ls_rooms (sock (cc_state (crun s (CConnect x false :: ts) sched)) x) ↔ r = x ∨ r ∈ ls_rooms (sock s x) ∨ ∃ rs, CJoin x rs ∈ ts ∧ r ∈ rs).
Proof. exact admitted_rooms. Qed.
Print Assumptions C74_rooms.
Theorem C74_left : ∀ (s : cstate) (ts : list ccall) (sched : list (nat * option sid)) (x : sid) (r : room),
  fresh (sock s x) → cs_open s = true → (∀ t, t ∈ ts → ¬ may_close x t) → (∀ b, CConnect x b ∉ ts) → r ≠ x → (∀ rs, CJoin x rs ∈ ts → r ∉ rs) → creturned (crun s (CConnect x false :: ts) sched) →
  (r ∈ ls_rooms (sock (cc_state (crun s (CConnect x false :: ts) sched)) x) ↔ r ∈ ls_rooms (sock s x) ∧ CLeave x r ∉ ts).
Proof. exact admitted_left. Qed.
Print Assumptions C74_left.
(** A refused client is told so exactly once, unless the connection is closed meanwhile. *)
Theorem C74_told : ∀ (s : cstate) (ts : list ccall) (sched : list (nat * option sid)) (x : sid),
  fresh (sock s x) → cs_open s = true → (∀ b, CConnect x b ∉ ts) → (∀ r, CTransport r ∉ ts) → (∀ y, CDisconnectAll y ∈ ts → y = x) →
  creturned (crun s (CConnect x true :: ts) sched) → (log_of x (crun s (CConnect x true :: ts) sched)).*2 = [VDenied].
Proof. exact refused_told. Qed.
Print Assumptions C74_told.
(** A connected socket that nothing called can close stays connected, nothing is said of it, and only its own Join and Leave calls move it, whatever is
    done with the others. *)
Theorem C74_stays : ∀ (s : cstate) (ts : list ccall) (sched : list (nat * option sid)) (x : sid),
  settled (sock s x) → (∀ t, t ∈ ts → ¬ may_close x t) → (∀ b, CConnect x b ∉ ts) → creturned (crun s ts sched) →
  let f := crun s ts sched in settled (sock (cc_state f) x) ∧ log_of x f = [] ∧
  (∀ r, CLeave x r ∉ ts → (r ∈ ls_rooms (sock (cc_state f) x) ↔ r ∈ ls_rooms (sock s x) ∨ ∃ rs, CJoin x rs ∈ ts ∧ r ∈ rs)) ∧
  (∀ r, (∀ rs, CJoin x rs ∈ ts → r ∉ rs) → (r ∈ ls_rooms (sock (cc_state f) x) ↔ r ∈ ls_rooms (sock s x) ∧ CLeave x r ∉ ts)).
Proof. exact stays. Qed.
Print Assumptions C74_stays.
(** A closing call says of a socket that nothing else closes exactly what it has to. *)
Theorem C74_alone : ∀ (s : cstate) (t : ccall) (ts : list ccall) (sched : list (nat * option sid)) (x : sid),
  settled (sock s x) → cs_open s = true → must_close x t → (∀ u, u ∈ ts → ¬ may_close x u) → (∀ b, CConnect x b ∉ ts) →
  creturned (crun s (t :: ts) sched) → (log_of x (crun s (t :: ts) sched)).*2 = farewell_of t.
Proof. exact closed_alone. Qed.
Print Assumptions C74_alone.
(** A socket that the connection does not know yet is in no room and meets the conditions of the last two theorems. *)
Theorem C74_new : ∀ (s : cstate) (x : sid), cs_socks s !! x = None → fresh (sock s x) ∧ ls_rooms (sock s x) = ∅.
Proof. exact new_fresh. Qed.
Print Assumptions C74_new.

Definition c74_here (id : sid) : lstate := LState true true true {[id; "r"]} true true true.
Definition c74_conn : cstate := CState true {["a" := c74_here "a"; "b" := c74_here "b"]}.
Definition c74_back (c : cconf) : bool := forallb (λ x : ccall * cpc, cover x.2) (cc_calls c).
Lemma c74_back_ok c : c74_back c = true → creturned c.
Proof. intros H t p Hp. unfold c74_back in H. rewrite forallb_forall in H. by apply elem_of_list_In, H in Hp. Qed.
(** Disconnect(true) does nothing if its socket has just been left by a packet of the client: the connection and the other sockets stay. *)
Theorem C74_all_refuted : ∃ (s : cstate) (ts : list ccall) (sched : list (nat * option sid)) (x y : sid), settled (sock s x) ∧ settled (sock s y) ∧
  CDisconnectAll y ∈ ts ∧ creturned (crun s ts sched) ∧ cs_open (cc_state (crun s ts sched)) = true ∧ settled (sock (cc_state (crun s ts sched)) x).
Proof.
  exists c74_conn, [CDisconnectAll "a"; CPacket "a"], (replicate 12 (1, None) ++ [(0, None)]), "b", "a".
  split_and!; [by repeat split..|set_solver|apply c74_back_ok; vm_compute; reflexivity|vm_compute; reflexivity|]. repeat split; vm_compute; reflexivity.
Qed.
Print Assumptions C74_all_refuted.

(** The transport closes while a leaves, b joins a room (and stays in it) and c is admitted: c is seen by the loop. *)
Definition c74_calls : list ccall := [CTransport "ping timeout"; CPacket "a"; CConnect "c" false; CJoin "b" {["x"]}].
Definition c74_sched : list (nat * option sid) :=
  [(2, None); (2, None); (2, None); (1, None); (1, None); (0, None); (3, None); (0, Some "b")] ++ replicate 3 (0, None) ++ [(3, None)] ++ replicate 7 (0, None) ++
  replicate 10 (2, None) ++ [(0, Some "c")] ++ replicate 11 (0, None) ++ replicate 12 (1, None) ++ [(0, Some "a"); (0, None); (0, None); (0, None); (0, None)].
Example C74_example : settled (sock c74_conn "a") ∧ settled (sock c74_conn "b") ∧ fresh (sock c74_conn "c") ∧ creturned (crun c74_conn c74_calls c74_sched) ∧
  (log_of "a" (crun c74_conn c74_calls c74_sched) = [(1, VDisconnecting "client namespace disconnect"); (1, VDisconnect "client namespace disconnect")]) ∧
  (log_of "b" (crun c74_conn c74_calls c74_sched) = [(0, VDisconnecting "ping timeout"); (0, VDisconnect "ping timeout")]) ∧
  elements (ls_rooms (sock (cc_state (crun c74_conn c74_calls c74_sched)) "b")) = ["x"] ∧
  (log_of "c" (crun c74_conn c74_calls c74_sched)).*2 = [VConnect; VConnection; VDisconnecting "ping timeout"; VDisconnect "ping timeout"] ∧
  cs_open (cc_state (crun c74_conn c74_calls c74_sched)) = false.
Proof. split_and!; [by repeat split|by repeat split|by repeat split|apply c74_back_ok; vm_compute; reflexivity|vm_compute; reflexivity..]. Qed.
(** Disconnect(true) of a closes b too. *)
Example C74_example_all : let c := crun c74_conn [CDisconnectAll "a"; CConnect "c" true]
    ([(0, None); (0, Some "b")] ++ replicate 12 (0, None) ++ replicate 5 (1, None) ++ [(0, Some "a")] ++ replicate 20 (0, None)) in
  creturned c ∧ (CDisconnectAll "a", MDone) ∈ cc_calls c ∧
  (log_of "b" c).*2 = [VLeavePacket; VDisconnecting "server namespace disconnect"; VDisconnect "server namespace disconnect"] ∧
  (log_of "c" c).*2 = [VDenied] ∧ cs_open (cc_state c) = false.
Proof. cbv zeta. split_and!; [apply c74_back_ok; vm_compute; reflexivity| |vm_compute; reflexivity..]. apply elem_of_list_lookup. exists 0. vm_compute. reflexivity. Qed.
(** c is admitted while a leaves. *)
Example C74_example_admitted : let c := crun c74_conn [CConnect "c" false; CPacket "a"; CJoin "c" {["y"]}]
    ([(0, None); (1, None); (0, None); (1, None); (2, None)] ++ replicate 12 (0, None) ++ replicate 12 (1, None) ++ [(2, None)]) in
  creturned c ∧ Forall (λ t, ¬ may_close "c" t) [CPacket "a"; CJoin "c" {["y"]}] ∧ elements (ls_rooms (sock (cc_state c) "c")) = ["y"; "c"].
Proof. cbv zeta. split_and!; [apply c74_back_ok; vm_compute; reflexivity|by_eval|vm_compute; reflexivity]. Qed.
(** c is refused while a leaves. *)
Example C74_example_told : let c := crun c74_conn [CConnect "c" true; CPacket "a"; CJoin "c" {["y"]}]
    ([(0, None); (1, None); (0, None); (1, None); (2, None)] ++ replicate 12 (0, None) ++ replicate 12 (1, None) ++ [(2, None)]) in
  creturned c ∧ fresh (sock c74_conn "c") ∧ (log_of "c" c).*2 = [VDenied].
Proof. cbv zeta. split_and!; [apply c74_back_ok; vm_compute; reflexivity|by repeat split|vm_compute; reflexivity]. Qed.
(** Server.Close while a leaves and b joins a room. *)
Example C74_example_alone : let c := crun c74_conn [CShutdown; CPacket "a"; CJoin "b" {["y"]}]
    ([(0, None); (1, None); (0, Some "b"); (1, None); (2, None)] ++ replicate 12 (0, None) ++ replicate 12 (1, None) ++ replicate 2 (2, None) ++ [(0, Some "a"); (0, None); (0, None)]) in
  creturned c ∧ (log_of "b" c).*2 = [VDisconnecting "server shutting down"; VDisconnect "server shutting down"] ∧ Forall (λ t, ¬ may_close "b" t) [CPacket "a"; CJoin "b" {["y"]}].
Proof. cbv zeta. split_and!; [apply c74_back_ok; vm_compute; reflexivity|vm_compute; reflexivity|by_eval]. Qed.
(** c, admitted with the rooms of its session, leaves one of them meanwhile. *)
Example C74_example_left : let s := CState true {["a" := c74_here "a"; "c" := LState true false true {["y"; "z"]} false false false]} in
  let c := crun s [CConnect "c" false; CPacket "a"; CLeave "c" "y"] ([(0, None); (1, None); (0, None); (1, None); (2, None)] ++ replicate 12 (0, None) ++ replicate 12 (1, None)) in
  fresh (sock s "c") ∧ creturned c ∧ size (ls_rooms (sock (cc_state c) "c")) = 2 ∧ "z" ∈ ls_rooms (sock (cc_state c) "c") ∧ "y" ∉ ls_rooms (sock (cc_state c) "c").
Proof. cbv zeta. split; [by repeat split|]. split; [apply c74_back_ok; vm_compute; reflexivity|]. split; [vm_compute; reflexivity|]. split; by_eval. Qed.
(** b moves while a leaves. *)
Example C74_example_stays : let c := crun c74_conn [CPacket "a"; CJoin "b" {["y"]}; CLeave "b" "r"] (replicate 3 (0, None) ++ [(1, None); (2, None)] ++ replicate 12 (0, None) ++ [(1, None)]) in
  creturned c ∧ Forall (λ t, ¬ may_close "b" t) [CPacket "a"; CJoin "b" {["y"]}; CLeave "b" "r"] ∧ size (ls_rooms (sock (cc_state c) "b")) = 2 ∧
  "y" ∈ ls_rooms (sock (cc_state c) "b") ∧ "r" ∉ ls_rooms (sock (cc_state c) "b").
Proof. cbv zeta. split; [apply c74_back_ok; vm_compute; reflexivity|]. split; [by_eval|]. split; [vm_compute; reflexivity|]. split; by_eval. Qed.
