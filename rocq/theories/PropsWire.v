(** Property C62: the conversation of one client with a namespace while its socket is admitted, closed, written to and read from on
    several goroutines (socket/namespace.go:267-303, 348-381, socket/socket.go:473-503, 509-571, 618-681,
    socket/client.go:120-159, 174-247, socket/adapter.go:139-215).  Call 0 admits the socket, [ts] are the other calls of
    its lifecycle, [ws] the broadcasts, the emissions and the packets of the client. *)
From Verif Require Import Base LifeConc LifeConcSpec WireConc WireConcSpec WireConcProofs WireConcExamples.

(** ** From the client
    A packet that is read when the admission is over and nothing has begun to close the socket reaches the socket. *)
Theorem C62_handled : ∀ own s ts ws sched j b, fresh s → Forall (λ t, ¬ admits t) ts →
  let c := w_run s (LcConnect own false :: ts) ws sched in
  w_threads c !! j = Some (WIn b, VStart) → is_open c → admitted c → ¬ closing c → handled (w_step c (inr j)) j.
Proof. exact run_handled. Qed.
Print Assumptions C62_handled.
Example C62_handled_example : let c := w_run arriving [LcConnect "a" false; LcDisconnect] [WIn false] (calls 8 0) in
  fresh arriving ∧ w_threads c !! 0 = Some (WIn false, VStart) ∧ is_open c ∧ admitted c ∧ ¬ closing c.
Proof.
  cbv zeta. split_and!; try done. { left. by eexists. }
  intros (i & t & p & Hi & Hc & Hp). destruct i as [|[|i]]; vm_compute in Hi; [injection Hi as <- <-; done|injection Hi as <- <-; done|discriminate].
Qed.
(** A packet reaches the socket only if CONNECT was written to the client. *)
Theorem C62_known : ∀ own s ts ws sched j, fresh s → Forall (λ t, ¬ admits t) ts →
  let c := w_run s (LcConnect own false :: ts) ws sched in handled c j → PConnect ∈ w_wire c.
Proof. exact run_known. Qed.
Print Assumptions C62_known.
Example C62_known_example : handled (w_run arriving [LcConnect "a" false] [WIn true] (calls 8 0 ++ threads 1 0)) 0.
Proof. exists (WIn true). reflexivity. Qed.
(** A packet of a client that waits for CONNECT is refused only if it is read between the write of CONNECT and the registration of the
    socket with the client, or after something began to close the socket. *)
Theorem C62_window : ∀ own s ts ws sched j, fresh s → Forall (λ t, ¬ admits t) ts → polite s (LcConnect own false :: ts) ws sched →
  refused (w_run s (LcConnect own false :: ts) ws sched) j →
  ∃ l1 l2, sched = l1 ++ inr j :: l2 ∧ let c := w_run s (LcConnect own false :: ts) ws l1 in
    is_open c ∧ (admission_at c QTable ∨ admission_at c QNsps ∨ closing c).
Proof. exact run_window. Qed.
Print Assumptions C62_window.
(** Both happen.  In the first the client did nothing wrong and nobody meant to close its socket: the server closes the whole
    connection. *)
Theorem C62_polite_refuted : let sched := calls 6 0 ++ threads 1 0 ++ calls 6 0 ++ calls 20 1 in
  let c := w_run arriving [LcConnect "a" false] [WIn false] sched in
  polite arriving [LcConnect "a" false] [WIn false] sched ∧ refused c 0 ∧ ¬ is_open c ∧ w_wire c = [PConnect] ∧
  lf_log (w_life c) = [(0, VPacket); (0, VConnect); (0, VConnection); (1, VDisconnecting "forced server close"); (1, VDisconnect "forced server close")].
Proof.
  cbv zeta. split_and!.
  - apply wx_polite. vm_compute. reflexivity.
  - exists (WIn false). vm_compute. reflexivity.
  - vm_compute. discriminate.
  - vm_compute. reflexivity.
  - vm_compute. reflexivity.
Qed.
Print Assumptions C62_polite_refuted.
(** In the second the server disconnects the socket from one namespace while a packet of the client is on its way: the whole
    connection is closed, with every other namespace on it. *)
Theorem C62_crossing_refuted : let c := w_run on_air [LcDisconnect] [WIn false] (calls 20 0 ++ threads 1 0 ++ calls 20 1) in
  is_open (w_run on_air [LcDisconnect] [WIn false] (calls 20 0)) ∧ refused c 0 ∧ ¬ is_open c ∧ w_wire c = [PDisconnect].
Proof. cbv zeta. split_and!; [vm_compute; reflexivity|exists (WIn false); vm_compute; reflexivity|vm_compute; discriminate|vm_compute; reflexivity]. Qed.
Print Assumptions C62_crossing_refuted.

(** ** To the client
    CONNECT is written at most once, the packet of each emission at most once, and no refusal. *)
Theorem C62_once : ∀ own s ts ws sched, fresh s → Forall (λ t, ¬ admits t) ts →
  let c := w_run s (LcConnect own false :: ts) ws sched in NoDup (filter (λ x, x ≠ PDisconnect) (w_wire c)) ∧ PDenied ∉ w_wire c.
Proof. exact run_once. Qed.
Print Assumptions C62_once.
(** CONNECT comes first, unless before it a broadcast looked the socket up, somebody emitted to it or disconnected it. *)
Theorem C62_first : ∀ own s ts ws sched, fresh s → Forall (λ t, ¬ admits t) ts → undisturbed s (LcConnect own false :: ts) ws sched →
  w_wire (w_run s (LcConnect own false :: ts) ws sched) = [] ∨ ∃ l, w_wire (w_run s (LcConnect own false :: ts) ws sched) = PConnect :: l.
Proof. exact run_first. Qed.
Print Assumptions C62_first.
Example C62_first_example : let ts := [LcConnect "a" false; LcDisconnect] in let ws := [WBcast None; WEmit] in
  let sched := calls 5 0 ++ threads 1 0 ++ calls 1 0 ++ threads 2 0 ++ threads 2 1 ++ calls 3 1 in
  undisturbed arriving ts ws sched ∧ w_wire (w_run arriving ts ws sched) = [PConnect; PEvent 0; PEvent 1; PDisconnect].
Proof.
  cbv zeta. split; [apply wx_undisturbed|]; vm_compute; reflexivity.
Qed.
Theorem C62_event_first_refuted : w_wire (w_run arriving [LcConnect "a" false] [WBcast None] (calls 5 0 ++ threads 3 0 ++ calls 6 0)) = [PEvent 0; PConnect].
Proof. vm_compute. reflexivity. Qed.
Print Assumptions C62_event_first_refuted.
(** Disconnected while it is being admitted: DISCONNECT, then CONNECT, and the handlers of the namespace run on a closed socket. *)
Theorem C62_goodbye_first_refuted : let c := w_run arriving [LcConnect "a" false; LcDisconnect] [] (calls 3 0 ++ calls 12 1 ++ calls 12 0) in
  w_wire c = [PDisconnect; PConnect] ∧ ls_connected (lf_state (w_life c)) = false ∧
  lf_log (w_life c) = [(1, VLeavePacket); (1, VDisconnecting "server namespace disconnect"); (1, VDisconnect "server namespace disconnect"); (0, VPacket); (0, VConnect); (0, VConnection)].
Proof. cbv zeta. split_and!; vm_compute; reflexivity. Qed.
Print Assumptions C62_goodbye_first_refuted.

(** A broadcast that ran to its end while the connection stayed open was written, or at one of its steps the socket was not in the room or
    not in the table of the namespace. *)
Theorem C62_reached : ∀ own s ts ws sched j r x, fresh s → Forall (λ t, ¬ admits t) ts →
  let c := w_run s (LcConnect own false :: ts) ws sched in
  w_threads c !! j = Some (WBcast r, VEnd x) → is_open c →
  PEvent j ∈ w_wire c ∨ ∃ l1 l2, sched = l1 ++ inr j :: l2 ∧ (¬ matches (w_run s (LcConnect own false :: ts) ws l1) r ∨ ¬ listed (w_run s (LcConnect own false :: ts) ws l1)).
Proof. exact run_reached. Qed.
Print Assumptions C62_reached.
Example C62_reached_example : let c := w_run arriving [LcConnect "a" false] [WBcast None; WBcast (Some "r")] (calls 8 0 ++ threads 3 0 ++ threads 3 1) in
  w_threads c = [(WBcast None, VEnd WSent); (WBcast (Some "r"), VEnd WSkipped)] ∧ is_open c ∧ w_wire c = [PConnect; PEvent 0].
Proof. cbv zeta. split_and!; vm_compute; reflexivity. Qed.
(** Once the socket has left the table of the namespace, what is still written comes from the handlers of the socket itself or from
    broadcasts that had already looked it up. *)
Theorem C62_last : ∀ own s ts ws l1 l2 j, fresh s → Forall (λ t, ¬ admits t) ts →
  let c1 := w_run s (LcConnect own false :: ts) ws l1 in
  ¬ before_store c1 → ¬ listed c1 → PEvent j ∈ w_wire (w_run s (LcConnect own false :: ts) ws (l1 ++ l2)) →
  PEvent j ∈ w_wire c1 ∨ (∃ t, w_threads c1 !! j = Some (t, VSend)) ∨ ∃ p, w_threads c1 !! j = Some (WEmit, p).
Proof. exact run_last. Qed.
Print Assumptions C62_last.
Example C62_last_example : let ts := [LcConnect "a" false; LcPacket] in let ws := [WBcast None; WBcast None; WEmit] in
  let l1 := calls 9 0 ++ threads 2 0 ++ calls 5 1 in let l2 := threads 3 0 ++ threads 3 1 ++ threads 3 2 in
  ¬ before_store (w_run arriving ts ws l1) ∧ ¬ listed (w_run arriving ts ws l1) ∧
  w_wire (w_run arriving ts ws l1) = [PConnect] ∧ w_wire (w_run arriving ts ws (l1 ++ l2)) = [PConnect; PEvent 0; PEvent 2].
Proof. cbv zeta. split_and!; [intros [[t H]|[t H]]; vm_compute in H; discriminate H|vm_compute; discriminate|vm_compute; reflexivity|vm_compute; reflexivity]. Qed.
(** DISCONNECT is not the last packet: it is written before the socket leaves its rooms. *)
Theorem C62_last_refuted : w_wire (w_run on_air [LcDisconnect] [WBcast None] (calls 2 0 ++ threads 3 0 ++ calls 12 0)) = [PDisconnect; PEvent 0].
Proof. vm_compute. reflexivity. Qed.
Print Assumptions C62_last_refuted.
