(** Theorems on the lifecycle of a socket under concurrent calls (C51). *)
From Verif Require Import Base LifeConc LifeConcSpec LifeConcProofs LifeMore LifeAlone LifeMoves.

(** C51: whatever the calls on a connected socket and however they interleave, if one of them closes the socket,
    then when all have returned it is not connected, cannot join, is in neither the namespace's nor the client's
    tables, and the only rooms it can be left in are rooms named by Join calls among them.  (Missing: with a Join
    running at the same time a membership can stay behind, C51_join_refuted; a socket still being admitted can
    survive, C51_zombie_refuted.) *)
Theorem C51_gone_partial (s : lstate) (ts : list lcall) (sched : list nat) (t : lcall) :
  settled s → Forall (λ t, ¬ admits t) ts → t ∈ ts → closes t → returned (lc_run s ts sched) →
  gone (lf_state (lc_run s ts sched)) ∧ ∀ r, r ∈ ls_rooms (lf_state (lc_run s ts sched)) → joinable ts r.
Proof. exact (c51_gone_l s ts sched t). Qed.
Print Assumptions C51_gone_partial.

Definition on_air : lstate := LState true true true {["a"; "r"]} true true true.
Definition arriving : lstate := LState true false true ∅ false false false.
Definition wait_all (c : lconf) : bool := forallb (λ x : lcall * lpc, match x.2 with QDone => true | _ => false end) (lf_calls c).
Lemma wait_all_ok c : wait_all c = true → returned c.
Proof.
  intros H i t p Hi. unfold wait_all in H. rewrite forallb_forall in H. apply elem_of_list_lookup_2, elem_of_list_In in Hi.
  specialize (H _ Hi). cbn in H. by destruct p.
Qed.
Example C51_gone_ex :
  settled on_air ∧ Forall (λ t, ¬ admits t) [LcTransport "ping timeout"; LcDisconnectAll; LcLeave "r"] ∧
  returned (lc_run on_air [LcTransport "ping timeout"; LcDisconnectAll; LcLeave "r"]
    ([1; 1; 0; 1; 0; 1; 0; 2] ++ replicate 20 1 ++ replicate 20 0)) ∧
  lf_log (lc_run on_air [LcTransport "ping timeout"; LcDisconnectAll; LcLeave "r"]
    ([1; 1; 0; 1; 0; 1; 0; 2] ++ replicate 20 1 ++ replicate 20 0)) =
    [(1, VDisconnecting server_reason); (1, VDisconnect server_reason); (0, VDisconnecting "ping timeout"); (0, VDisconnect "ping timeout")].
Proof.
  split; [by repeat split|]. split; [repeat constructor; auto|]. split; [apply wait_all_ok; vm_compute; reflexivity|vm_compute; reflexivity].
Qed.

(** C51: each call emits at most one disconnecting and, after it, at most one disconnect, with the same reason;
    there are at most as many disconnect events as closing calls, and at least one.  (Missing: at most one in all,
    C51_twice_refuted.) *)
Theorem C51_call_partial (s : lstate) (ts : list lcall) (sched : list nat) (i : nat) :
  settled s → Forall (λ t, ¬ admits t) ts → ∃ r, endings i (lc_run s ts sched) `prefix_of` [VDisconnecting r; VDisconnect r].
Proof. exact (c51_call_l s ts sched i). Qed.
Print Assumptions C51_call_partial.

Theorem C51_count_partial (s : lstate) (ts : list lcall) (sched : list nat) :
  settled s → Forall (λ t, ¬ admits t) ts → disconnects (lc_run s ts sched) ≤ length (filter closes ts).
Proof. exact (c51_count_l s ts sched). Qed.
Print Assumptions C51_count_partial.

Theorem C51_said (s : lstate) (ts : list lcall) (sched : list nat) (t : lcall) :
  settled s → Forall (λ t, ¬ admits t) ts → t ∈ ts → closes t → returned (lc_run s ts sched) → 1 ≤ disconnects (lc_run s ts sched).
Proof. exact (c51_said_l s ts sched t). Qed.
Print Assumptions C51_said.

Example C51_call_ex :
  endings 0 (lc_run on_air [LcTransport "ping timeout"; LcJoin {["x"]}] (replicate 20 0)) = [VDisconnecting "ping timeout"; VDisconnect "ping timeout"] ∧
  disconnects (lc_run on_air [LcTransport "ping timeout"; LcJoin {["x"]}] (replicate 20 0 ++ [1; 1])) = 1 ∧
  length (filter closes [LcTransport "ping timeout"; LcJoin {["x"]}]) = 1.
Proof. split; [vm_compute; reflexivity|]. split; vm_compute; reflexivity. Qed.

(** C51: a connected socket on which only Join and Leave are called stays connected and in all tables, nothing is said, and a room that no Leave names
    is in the end one it was in before or one that was joined; one that no Join names, one it was in before and that was not left. *)
Theorem C51_moves (s : lstate) (ts : list lcall) (sched : list nat) :
  settled s → Forall (λ t, ¬ admits t ∧ ¬ closes t) ts → returned (lc_run s ts sched) →
  settled (lf_state (lc_run s ts sched)) ∧ lf_log (lc_run s ts sched) = [] ∧
  (∀ r, LcLeave r ∉ ts → (r ∈ ls_rooms (lf_state (lc_run s ts sched)) ↔ r ∈ ls_rooms s ∨ joinable ts r)) ∧
  (∀ r, ¬ joinable ts r → (r ∈ ls_rooms (lf_state (lc_run s ts sched)) ↔ r ∈ ls_rooms s ∧ LcLeave r ∉ ts)).
Proof. exact (c51_moves_l s ts sched). Qed.
Print Assumptions C51_moves.

Example C51_moves_ex :
  wait_all (lc_run on_air [LcJoin {["x"]}; LcLeave "r"; LcJoin {["y"; "r"]}] [0; 2; 1; 2; 0]) = true ∧
  size (ls_rooms (lf_state (lc_run on_air [LcJoin {["x"]}; LcLeave "r"; LcJoin {["y"; "r"]}] [0; 2; 1; 2; 0]))) = 4 ∧
  Forall (λ t, ¬ admits t ∧ ¬ closes t) [LcJoin {["x"]}; LcLeave "r"; LcJoin {["y"; "r"]}].
Proof. split; [vm_compute; reflexivity|]. split; [vm_compute; reflexivity|]. repeat constructor; auto. Qed.

(** C51: a closing call that no other disturbs says exactly what it has to, with its own reason; the server's disconnection is announced to the client. *)
Theorem C51_alone (s : lstate) (ts : list lcall) (sched : list nat) (t : lcall) :
  settled s → ls_open s = true → Forall (λ t, ¬ admits t ∧ ¬ closes t) ts → closes t → returned (lc_run s (t :: ts) sched) →
  (lf_log (lc_run s (t :: ts) sched)).*2 = farewell t.
Proof. exact (c51_alone_l s ts sched t). Qed.
Print Assumptions C51_alone.

Example C51_alone_ex :
  settled on_air ∧ wait_all (lc_run on_air [LcDisconnectAll; LcJoin {["x"]}] ([1] ++ replicate 7 0 ++ [1] ++ replicate 15 0)) = true ∧
  farewell LcDisconnectAll = [VLeavePacket; VDisconnecting "server namespace disconnect"; VDisconnect "server namespace disconnect"].
Proof. split; [by repeat split|]. split; vm_compute; reflexivity. Qed.

(** A call that starts when "disconnect" has been emitted emits nothing. *)
Theorem C51_late (s : lstate) (ts : list lcall) (l1 l2 : list nat) (i : nat) :
  settled s → Forall (λ t, ¬ admits t) ts → 1 ≤ disconnects (lc_run s ts l1) → i ∉ l1 → endings i (lc_run s ts (l1 ++ l2)) = [].
Proof. exact (c51_late_l s ts l1 l2 i). Qed.
Print Assumptions C51_late.

Example C51_late_ex :
  disconnects (lc_run on_air [LcTransport "ping timeout"; LcPacket; LcDisconnect] (replicate 20 0)) = 1 ∧
  endings 1 (lc_run on_air [LcTransport "ping timeout"; LcPacket; LcDisconnect] (replicate 20 0 ++ replicate 12 1 ++ replicate 12 2)) = [].
Proof. split; vm_compute; reflexivity. Qed.

(** Two calls that both find the socket connected emit disconnect twice. *)
Theorem C51_twice_refuted :
  ∃ sched, settled on_air ∧ returned (lc_run on_air [LcPacket; LcDisconnect] sched) ∧ disconnects (lc_run on_air [LcPacket; LcDisconnect] sched) = 2.
Proof.
  exists ([0; 0] ++ replicate 12 1 ++ replicate 12 0). split; [by repeat split|].
  split; [apply wait_all_ok; vm_compute; reflexivity|vm_compute; reflexivity].
Qed.
Print Assumptions C51_twice_refuted.

(** C51: once a closing call has cleared canJoin, the socket enters no room except through Join calls that had
    read canJoin before. *)
Theorem C51_join_partial (s : lstate) (ts : list lcall) (l1 l2 : list nat) (r : room) :
  settled s → Forall (λ t, ¬ admits t) ts → ls_can (lf_state (lc_run s ts l1)) = false →
  r ∈ ls_rooms (lf_state (lc_run s ts (l1 ++ l2))) → r ∈ ls_rooms (lf_state (lc_run s ts l1)) ∨ joining (lc_run s ts l1) r.
Proof. exact (c51_join_l s ts l1 l2 r). Qed.
Print Assumptions C51_join_partial.

Example C51_join_ex :
  ls_can (lf_state (lc_run on_air [LcPacket; LcJoin {["x"]}; LcJoin {["y"]}] ([2] ++ replicate 7 0))) = false ∧
  elements (ls_rooms (lf_state (lc_run on_air [LcPacket; LcJoin {["x"]}; LcJoin {["y"]}] (([2] ++ replicate 7 0) ++ [1; 1; 2])))) = ["y"].
Proof. split; vm_compute; reflexivity. Qed.

(** A Join whose check precedes the close, or one called between leaveAll and the clearing of canJoin (for example
    by a handler of the adapter's "leave-room"), leaves the disconnected socket in a room. *)
Theorem C51_join_refuted :
  ∃ sched, settled on_air ∧ returned (lc_run on_air [LcPacket; LcJoin {["x"]}] sched) ∧
    gone (lf_state (lc_run on_air [LcPacket; LcJoin {["x"]}] sched)) ∧ ls_rooms (lf_state (lc_run on_air [LcPacket; LcJoin {["x"]}] sched)) ≠ ∅.
Proof.
  exists (replicate 4 0 ++ [1; 1] ++ replicate 10 0). split; [by repeat split|].
  split; [apply wait_all_ok; vm_compute; reflexivity|]. split; [repeat split; vm_compute; reflexivity|].
  intros H. assert (Hs : size (ls_rooms (lf_state (lc_run on_air [LcPacket; LcJoin {["x"]}] (replicate 4 0 ++ [1; 1] ++ replicate 10 0)))) = 1) by (vm_compute; reflexivity).
  rewrite H in Hs. by rewrite size_empty in Hs.
Qed.
Print Assumptions C51_join_refuted.

(** C51: a socket refused by the middlewares, or whose connection is closed when they finish, is never connected,
    whatever else is called on it; no event tells of a connection; and in the end it is out of all tables. *)
Theorem C51_refused (s : lstate) (ts : list lcall) (sched : list nat) (own : room) (b : bool) :
  fresh s → LcConnect own b ∈ ts → Forall (λ t, match t with LcConnect own' b' => own' = own ∧ b' = b | _ => True end) ts →
  ls_open s = false ∨ b = true →
  ls_connected (lf_state (lc_run s ts sched)) = false ∧ (∀ e, e ∈ lf_log (lc_run s ts sched) → e.2 = VDenied) ∧
  (returned (lc_run s ts sched) → gone (lf_state (lc_run s ts sched))).
Proof. exact (c51_refused_l s ts sched own b). Qed.
Print Assumptions C51_refused.

Example C51_refused_ex :
  fresh arriving ∧
  lf_log (lc_run arriving [LcConnect "a" true; LcJoin {["x"]}; LcPacket] [1; 0; 2; 0; 1; 0; 0; 2; 0; 0]) = [(0, VDenied)] ∧
  wait_all (lc_run arriving [LcConnect "a" true; LcJoin {["x"]}; LcPacket] [1; 0; 2; 0; 1; 0; 0; 2; 0; 0]) = true.
Proof. split; [by repeat split|]. split; vm_compute; reflexivity. Qed.

(** C51: a client that the middlewares refuse is told so, exactly once, unless its connection closes meanwhile. *)
Theorem C51_told (s : lstate) (ts : list lcall) (sched : list nat) (own : room) :
  fresh s → ls_open s = true → (∀ t, t ∈ ts → ¬ admits t ∧ t ≠ LcClient ∧ ∀ r, t ≠ LcTransport r) → returned (lc_run s (LcConnect own true :: ts) sched) →
  (lf_log (lc_run s (LcConnect own true :: ts) sched)).*2 = [VDenied].
Proof. exact (c51_told_l s ts sched own). Qed.
Print Assumptions C51_told.

Example C51_told_ex : ls_open arriving = true ∧
  Forall (λ t, ¬ admits t ∧ t ≠ LcClient ∧ ∀ r, t ≠ LcTransport r) [LcJoin {["x"]}; LcPacket; LcShutdown; LcDisconnectAll].
Proof. split; [done|]. repeat constructor; auto; done. Qed.

(** C51: an admission that no closing call disturbs ends with the socket connected and in all tables, the CONNECT
    packet having been written before the events connect and connection. *)
Theorem C51_admitted (s : lstate) (ts : list lcall) (sched : list nat) (own : room) :
  fresh s → ls_open s = true → Forall (λ t, ¬ admits t ∧ ¬ closes t) ts → returned (lc_run s (LcConnect own false :: ts) sched) →
  settled (lf_state (lc_run s (LcConnect own false :: ts) sched)) ∧ (lf_log (lc_run s (LcConnect own false :: ts) sched)).*2 = [VPacket; VConnect; VConnection].
Proof. exact (c51_admitted_l s ts sched own). Qed.
Print Assumptions C51_admitted.

Example C51_admitted_ex :
  wait_all (lc_run arriving [LcConnect "a" false; LcJoin {["x"]}] ([0; 0; 1; 0; 1] ++ replicate 8 0)) = true ∧
  Forall (λ t, ¬ admits t ∧ ¬ closes t) [LcJoin {["x"]}].
Proof. split; [vm_compute; reflexivity|]. repeat constructor; auto. Qed.

(** C51: such a socket is in the end in its own room, in the rooms it was in before (a recovered session) and in those that Join calls
    name, and in no other; for every room that no concurrent Leave names. *)
Theorem C51_rooms (s : lstate) (ts : list lcall) (sched : list nat) (own r : room) :
  fresh s → ls_open s = true → Forall (λ t, ¬ admits t ∧ ¬ closes t) ts → LcLeave r ∉ ts → returned (lc_run s (LcConnect own false :: ts) sched) →
  (r ∈ ls_rooms (lf_state (lc_run s (LcConnect own false :: ts) sched)) ↔ r = own ∨ r ∈ ls_rooms s ∨ joinable ts r).
Proof. exact (c51_rooms_l s ts sched own r). Qed.
Print Assumptions C51_rooms.

(** C51: a room that no Join names is left if it was one of the session and a Leave names it. *)
Theorem C51_left (s : lstate) (ts : list lcall) (sched : list nat) (own r : room) :
  fresh s → ls_open s = true → Forall (λ t, ¬ admits t ∧ ¬ closes t) ts → r ≠ own → ¬ joinable ts r → returned (lc_run s (LcConnect own false :: ts) sched) →
  (r ∈ ls_rooms (lf_state (lc_run s (LcConnect own false :: ts) sched)) ↔ r ∈ ls_rooms s ∧ LcLeave r ∉ ts).
Proof. exact (c51_left_l s ts sched own r). Qed.
Print Assumptions C51_left.

Example C51_rooms_ex :
  wait_all (lc_run arriving [LcConnect "a" false; LcJoin {["x"]}; LcLeave "y"] ([0; 0; 1; 0; 2; 1] ++ replicate 8 0)) = true ∧
  elements (ls_rooms (lf_state (lc_run arriving [LcConnect "a" false; LcJoin {["x"]}; LcLeave "y"] ([0; 0; 1; 0; 2; 1] ++ replicate 8 0)))) = ["x"; "a"] ∧
  Forall (λ t, ¬ admits t ∧ ¬ closes t) [LcJoin {["x"]}; LcLeave "y"].
Proof. split; [vm_compute; reflexivity|]. split; [vm_compute; reflexivity|]. repeat constructor; auto. Qed.

Example C51_left_ex : let s := LState true false true {["y"; "z"]} false false false in
  let c := lc_run s [LcConnect "a" false; LcJoin {["x"]}; LcLeave "y"] ([0; 0; 1; 0; 2; 1] ++ replicate 8 0) in
  fresh s ∧ wait_all c = true ∧ size (ls_rooms (lf_state c)) = 3 ∧ "z" ∈ ls_rooms (lf_state c) ∧ "y" ∉ ls_rooms (lf_state c).
Proof. cbv zeta. split; [by repeat split|]. split; [vm_compute; reflexivity|]. split; [vm_compute; reflexivity|]. split; by_eval. Qed.

(** When the connection closes after the check of its state but before the socket is in the client's table, the
    socket becomes and stays connected on a closed connection. *)
Theorem C51_zombie_refuted :
  ∃ sched, fresh arriving ∧ returned (lc_run arriving [LcConnect "a" false; LcTransport "transport close"] sched) ∧
    ls_open (lf_state (lc_run arriving [LcConnect "a" false; LcTransport "transport close"] sched)) = false ∧
    settled (lf_state (lc_run arriving [LcConnect "a" false; LcTransport "transport close"] sched)).
Proof.
  exists ([0; 1; 1; 1] ++ replicate 9 0). split; [by repeat split|]. split; [apply wait_all_ok; vm_compute; reflexivity|].
  split; [vm_compute; reflexivity|]. repeat split; vm_compute; reflexivity.
Qed.
Print Assumptions C51_zombie_refuted.

(** A closing call that comes between the marking of the socket and the client's tables: disconnect is emitted
    before connect and connection, and the disconnected socket stays in the client's tables. *)
Theorem C51_order_refuted :
  ∃ sched, fresh arriving ∧ returned (lc_run arriving [LcConnect "a" false; LcShutdown] sched) ∧
    ls_connected (lf_state (lc_run arriving [LcConnect "a" false; LcShutdown] sched)) = false ∧
    ls_csock (lf_state (lc_run arriving [LcConnect "a" false; LcShutdown] sched)) = true ∧
    ls_cnsp (lf_state (lc_run arriving [LcConnect "a" false; LcShutdown] sched)) = true ∧
    (lf_log (lc_run arriving [LcConnect "a" false; LcShutdown] sched)).*2 =
      [VDisconnecting "server shutting down"; VDisconnect "server shutting down"; VPacket; VConnect; VConnection].
Proof.
  exists ([0; 0; 0] ++ replicate 9 1 ++ replicate 9 0). split; [by repeat split|]. split; [apply wait_all_ok; vm_compute; reflexivity|].
  repeat (split; [vm_compute; reflexivity|]). vm_compute. reflexivity.
Qed.
Print Assumptions C51_order_refuted.
