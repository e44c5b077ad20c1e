(** Properties C19–C26 and C34–C37, C45: connections, namespaces and the lifecycle of sockets.
    [csr], [skip], [clean] are the options connectionStateRecovery, its skipMiddlewares and
    cleanupEmptyChildNamespaces. *)
From Verif Require Import Base GoTypes Rooms Adapter AdapterSpec Session System SystemSpec SystemProofs SystemLife SystemPolite SystemClaims
  SystemNsp SystemReg SystemKeep SystemSeq SystemExamples.

Ltac decide_env := first [apply env_dec; [apply hist_ok|] | apply polite_dec | apply attended_dec]; vm_compute; reflexivity.

(** ** C19 A refused or aborted connection leaves no trace
    [k]'s middlewares finish with an error, or when the connection is closed; [h2] is what happens later. *)
Theorem C19_no_trace : ∀ (csr skip clean : bool) (h1 : list (sords * op)) (os : sords) (k : nat) (err : option value) (h2 : list (sords * op)) (a : sock),
  env_ok csr skip clean (h1 ++ (os, OVerdict k err) :: h2) → c_socks (run csr skip clean h1).1 !! k = Some a →
  (err ≠ None ∨ is_open (run csr skip clean h1).1 (sk_client a) = false) →
  let s1 := run csr skip clean (h1 ++ [(os, OVerdict k err)]) in let s := run csr skip clean (h1 ++ (os, OVerdict k err) :: h2) in
  rooms_sock s1.1 k = ∅ ∧ socks_of s1.1 (sk_nsp a) !! sk_id a = None ∧
  s1.2 = (run csr skip clean h1).2 ++ (if is_open (run csr skip clean h1).1 (sk_client a) then
    (λ e, (s1.1, EWrite (sk_client a) (Packet CONNECT_ERROR (name_of (run csr skip clean h1).1 (sk_nsp a)) [e] None))) <$> option_list err else []) ∧
  closed s.1 k ∧ ¬ listed s.1 k ∧ ¬ on_client s.1 k ∧ lives k s.2 = [] ∧ (sole s.1 k → rooms_sock s.1 k = ∅) ∧
  (∀ os' rs, step csr skip clean (os', OJoin k rs) s = s).
Proof. exact c19_refused_l. Qed.
Print Assumptions C19_no_trace.
Definition h_refused := h_chat ++ [OVerdict 3 (Some (VStr "no")); OJoin 3 ["q"]; OBroadcast 1 [VStr "ev"] "o" (room_opts "r")].
Example C19_example : env_ok false false false (hist h_refused) ∧
  rooms_sock (run false false false (hist h_chat)).1 3 = {["r"]} ∧ rooms_sock (run false false false (hist h_refused)).1 3 = ∅ ∧
  omap (λ e, match e.2 with EWrite c p => Some (c, p_type p) | _ => None end) (skipn 9 (run false false false (hist h_refused)).2) =
    [(2, CONNECT_ERROR); (1, EVENT); (0, EVENT)].
Proof. split; [decide_env|]. split; [by_eval|]. split; [by_eval|]. vm_compute. reflexivity. Qed.
(** Rooms and tables go by id.  RestoreSession can give the same id twice (C30_two_sockets_refuted): refusing
    the second socket then removes the first, connected one, from its rooms and from the namespace. *)
Definition h_twin := [OOpen "c0" false silent (arr ""); enters 0 "/" "s0"; OVerdict 0 None; OOpen "c1" false silent (arr "");
  OPacket 1 (Packet CONNECT "/" [] None) silent (Arrival "s1" (Some ("s0", ["s0"], [])))].
Theorem C19_same_id_refuted : ∃ (h : list (sords * op)) (os : sords) (j k : nat) (err : value) (a : sock),
  env_ok true false false (h ++ [(os, OVerdict j (Some err))]) ∧ j ≠ k ∧ welcomed (run true false false h).1 k a ∧
  let x := (run true false false (h ++ [(os, OVerdict j (Some err))])).1 in connected x k ∧ ¬ listed x k ∧ rooms_sock x k = ∅.
Proof.
  exists (hist h_twin), os1, 1, 0, VNil, (Sock "s0" 0 0 true true false). change (hist h_twin ++ _) with (hist (h_twin ++ [OVerdict 1 (Some VNil)])).
  split; [decide_env|]. split; [done|]. split; [split_and!; [by vm_compute..|by_eval]|]. cbv zeta. split; [apply connected_dec; vm_compute; reflexivity|]. split; [|by_eval].
  intros (n & i & H). destruct n as [|n]; vm_compute in H; [|by destruct n]. revert H. by destruct i.
Qed.
Print Assumptions C19_same_id_refuted.

(** ** C20 Connection sequence
    A CONNECT packet is written for a socket that is marked connected, listed and in its own room; the connect
    and connection events follow at once, when the socket is also in the tables of the client. *)
Theorem C20_packet : ∀ (csr skip clean : bool) (h : list (sords * op)) (l1 : list (core * eff)) (x : core) (c : nat) (p : packet) (l2 : list (core * eff)),
  env_ok csr skip clean h → (run csr skip clean h).2 = l1 ++ (x, EWrite c p) :: l2 → p_type p = CONNECT →
  ∃ k a y fns l3, l2 = (y, EConnect k fns) :: (y, EConnection k) :: l3 ∧ welcomed x k a ∧ sk_client a = c ∧ p_nsp p = name_of x (sk_nsp a) ∧
    (p_data p = [] ∨ p_data p = [VStr (sk_id a)]) ∧ tabled y k a.
Proof. exact c20_written_l. Qed.
Print Assumptions C20_packet.
(** The connect event is emitted right after that packet, to the listeners of the namespace. *)
Theorem C20_connect : ∀ (csr skip clean : bool) (h : list (sords * op)) (l1 : list (core * eff)) (x : core) (k : nat) (fns : list nat) (l2 : list (core * eff)),
  env_ok csr skip clean h → (run csr skip clean h).2 = l1 ++ (x, EConnect k fns) :: l2 →
  ∃ l0 x0 p a l3, l1 = l0 ++ [(x0, EWrite (sk_client a) p)] ∧ p_type p = CONNECT ∧ l2 = (x, EConnection k) :: l3 ∧ welcomed x k a ∧ tabled x k a ∧
    fns = match c_nsps x !! sk_nsp a with Some n => np_on n | None => [] end.
Proof. exact c20_connect_l. Qed.
Print Assumptions C20_connect.
Theorem C20_connection : ∀ (csr skip clean : bool) (h : list (sords * op)) (l1 : list (core * eff)) (x : core) (k : nat) (l2 : list (core * eff)),
  env_ok csr skip clean h → (run csr skip clean h).2 = l1 ++ (x, EConnection k) :: l2 → ∃ l0 fns, l1 = l0 ++ [(x, EConnect k fns)].
Proof. exact c20_connection_l. Qed.
Print Assumptions C20_connection.
(** The life of a socket: connect and connection once, then events, then disconnecting and disconnect once. *)
Theorem C20_life : ∀ (csr skip clean : bool) (h : list (sords * op)) (k : nat), env_ok csr skip clean h →
  lives k (run csr skip clean h).2 = [] ∧ ¬ connected (run csr skip clean h).1 k ∨
  (∃ ps, lives k (run csr skip clean h).2 = LConnect :: LConnection :: map LEvent ps) ∧ connected (run csr skip clean h).1 k ∨
  (∃ ps r, lives k (run csr skip clean h).2 = LConnect :: LConnection :: map LEvent ps ++ [LDisconnecting r; LDisconnect r]) ∧
    closed (run csr skip clean h).1 k.
Proof. exact c20_life_l. Qed.
Print Assumptions C20_life.
(** A socket whose middlewares accept it, on an open connection, is connected. *)
Theorem C20_admitted : ∀ (csr skip clean : bool) (h : list (sords * op)) (os : sords) (k : nat),
  env_ok csr skip clean (h ++ [(os, OVerdict k None)]) →
  (∀ a, c_socks (run csr skip clean h).1 !! k = Some a → is_open (run csr skip clean h).1 (sk_client a) = true) →
  let s' := run csr skip clean (h ++ [(os, OVerdict k None)]) in
  ∃ a, welcomed s'.1 k a ∧ tabled s'.1 k a ∧ lives k s'.2 = [LConnect; LConnection].
Proof. exact c20_admitted_l. Qed.
Print Assumptions C20_admitted.
Definition h_events := h_chat ++ [says 1 "/chat" [VStr "hi"]; says 0 "/chat" [VStr "yo"]; OTask 1; OTask 0; OTransport 1 "transport close"].
Example C20_example : env_ok true false false (hist h_events) ∧
  lives 1 (run true false false (hist h_events)).2 = [LConnect; LConnection; LEvent (Packet EVENT "/chat" [VStr "yo"] None)] ∧
  lives 2 (run true false false (hist h_events)).2 = [LConnect; LConnection; LEvent (Packet EVENT "/chat" [VStr "hi"] None);
    LDisconnecting "transport close"; LDisconnect "transport close"] ∧
  omap (λ e, match e.2 with EConnect k fns => Some (k, fns) | _ => None end) (run true false false (hist h_events)).2 = [(0, []); (1, [7]); (2, [7])].
Proof. split; [decide_env|]. split_and!; vm_compute; reflexivity. Qed.

(** ** C21 Disconnection sequence *)
Theorem C21_disconnecting : ∀ (csr skip clean : bool) (h : list (sords * op)) (l1 : list (core * eff)) (x : core) (k : nat) (r : string) (l2 : list (core * eff)),
  env_ok csr skip clean h → (run csr skip clean h).2 = l1 ++ (x, EDisconnecting k r) :: l2 →
  connected x k ∧ ∃ l0 y l3, l2 = l0 ++ (y, EDisconnect k r) :: l3 ∧ (l0 = [] ∨ l0 = [(x, EPersist k)]).
Proof. exact c21_disconnecting_l. Qed.
Print Assumptions C21_disconnecting.
(** ... while it is still in the rooms it was in before. *)
Theorem C21_rooms : ∀ (csr skip clean : bool) (h : list (sords * op)) (e : sords * op) (l1 : list (core * eff)) (x : core) (k : nat) (r : string)
    (l2 : list (core * eff)),
  env_ok csr skip clean (h ++ [e]) → polite csr skip clean h →
  (run csr skip clean (h ++ [e])).2 = (run csr skip clean h).2 ++ l1 ++ (x, EDisconnecting k r) :: l2 →
  rooms_sock x k = rooms_sock (run csr skip clean h).1 k.
Proof. exact c21_rooms_l. Qed.
Print Assumptions C21_rooms.
Theorem C21_disconnect : ∀ (csr skip clean : bool) (h : list (sords * op)) (l1 : list (core * eff)) (y : core) (k : nat) (r : string) (l2 : list (core * eff)),
  env_ok csr skip clean h → (run csr skip clean h).2 = l1 ++ (y, EDisconnect k r) :: l2 →
  closed y k ∧ rooms_sock y k = ∅ ∧
  ∀ a, c_socks y !! k = Some a → socks_of y (sk_nsp a) !! sk_id a = None ∧ csocks_of y (sk_client a) !! sk_id a = None.
Proof. exact c21_disconnect_l. Qed.
Print Assumptions C21_disconnect.
Theorem C21_once : ∀ (csr skip clean : bool) (h : list (sords * op)) (y : core) (k : nat) (r : string),
  env_ok csr skip clean h → (y, EDisconnect k r) ∈ (run csr skip clean h).2 →
  ∃ ps, lives k (run csr skip clean h).2 = LConnect :: LConnection :: map LEvent ps ++ [LDisconnecting r; LDisconnect r].
Proof. exact c21_preceded_l. Qed.
Print Assumptions C21_once.
Example C21_example : env_ok true false false (hist h_events) ∧ polite true false false (hist h_events) ∧
  omap (λ e, match e.2 with EDisconnecting 2 _ | EPersist 2 | EDisconnect 2 _ => Some (elements (rooms_sock e.1 2)) | _ => None end)
    (run true false false (hist h_events)).2 = [["r"; "q"; "s2"]; ["r"; "q"; "s2"]; []].
Proof. split; [decide_env|]. split; [decide_env|]. vm_compute. reflexivity. Qed.

(** ** C22 A disconnected socket is inert *)
Theorem C22_inert_partial : ∀ (csr skip clean : bool) (h1 h2 : list (sords * op)) (k : nat) (r : string) (x : core),
  env_ok csr skip clean (h1 ++ h2) → (x, EDisconnect k r) ∈ (run csr skip clean h1).2 →
  let s := run csr skip clean (h1 ++ h2) in
  closed s.1 k ∧ ¬ listed s.1 k ∧ (∀ c i, csocks_of s.1 c !! i ≠ Some k) ∧ (ids_ok s.1 → ¬ on_client s.1 k) ∧
  (sole s.1 k → rooms_sock s.1 k = ∅) ∧ (∀ os rs, step csr skip clean (os, OJoin k rs) s = s) ∧ (∀ n opts, ¬ target s.1 n opts k) ∧
  lives k s.2 = lives k (run csr skip clean h1).2.
Proof. exact c22_inert_l. Qed.
Print Assumptions C22_inert_partial.
Definition h_late := h_chat ++ [says 1 "/chat" [VStr "hi"]; ODisconnect 2 false].
Definition h_later := [OTask 0; OJoin 2 ["z"]; OEmit 2 [VStr "bye"] "o"; OBroadcast 1 [VStr "ev"] "o" (room_opts "q")].
Example C22_example : env_ok false false false (hist (h_late ++ h_later)) ∧
  (∃ x, (x, EDisconnect 2 "server namespace disconnect") ∈ (run false false false (hist h_late)).2) ∧
  rooms_sock (run false false false (hist (h_late ++ h_later))).1 2 = ∅.
Proof.
  split; [decide_env|]. split; [|by_eval]. apply (logged _ 12). vm_compute. reflexivity.
Qed.
(** Missing in [C22_inert_partial]: a packet that arrived before is still given to the catch-all listeners
    (and an acknowledgement to its callback), and Emit still writes to the connection. *)
Theorem C22_catch_all_refuted : ∃ (h : list (sords * op)) (k : nat) (r : string) (p : packet) (l1 l2 l3 : list eff),
  env_ok false false false h ∧ polite false false false h ∧ (run false false false h).2.*2 = l1 ++ EDisconnect k r :: l2 ++ EAny k p :: l3.
Proof.
  set (s := run false false false (hist (h_late ++ h_later))).
  exists (hist (h_late ++ h_later)), 2, "server namespace disconnect", (Packet EVENT "/chat" [VStr "hi"] None), (take 12 s.2.*2), [], (skipn 14 s.2.*2).
  split; [decide_env|]. split; [decide_env|]. vm_compute. reflexivity.
Qed.
Print Assumptions C22_catch_all_refuted.
Theorem C22_emit_refuted : ∃ (h : list (sords * op)) (k : nat) (r : string) (os : sords) (data : list value) (c : nat) (p : packet),
  env_ok false false false h ∧ EDisconnect k r ∈ (run false false false h).2.*2 ∧
  (run false false false (h ++ [(os, OEmit k data "")])).2.*2 = (run false false false h).2.*2 ++ [EWrite c p].
Proof.
  exists (hist h_late), 2, "server namespace disconnect", os1, [VStr "bye"], 1, (Packet EVENT "/chat" [VStr "bye"] None).
  split; [decide_env|]. split; [apply elem_of_list_lookup; exists 12; vm_compute; reflexivity|]. vm_compute. reflexivity.
Qed.
Print Assumptions C22_emit_refuted.

(** ** C23 Closing a connection closes every socket on it *)
Theorem C23_transport_partial : ∀ (csr skip clean : bool) (h : list (sords * op)) (os : sords) (c : nat) (r : string),
  env_ok csr skip clean (h ++ [(os, OTransport c r)]) → polite csr skip clean h →
  let s := run csr skip clean h in let s' := run csr skip clean (h ++ [(os, OTransport c r)]) in swept s s' c r ∧ is_open s'.1 c = false.
Proof. exact c23_transport_l. Qed.
Print Assumptions C23_transport_partial.
Theorem C23_disconnect_partial : ∀ (csr skip clean : bool) (h : list (sords * op)) (os : sords) (k : nat) (a : sock),
  env_ok csr skip clean (h ++ [(os, ODisconnect k true)]) → polite csr skip clean h → c_socks (run csr skip clean h).1 !! k = Some a → sk_connected a = true →
  let s := run csr skip clean h in let s' := run csr skip clean (h ++ [(os, ODisconnect k true)]) in
  swept s s' (sk_client a) "server namespace disconnect" ∧ is_open s'.1 (sk_client a) = false.
Proof. exact c23_disconnect_l. Qed.
Print Assumptions C23_disconnect_partial.
Example C23_example : env_ok true false false (hist (h_chat ++ [ODisconnect 1 true])) ∧ polite true false false (hist h_chat) ∧
  sk_connected <$> c_socks (run true false false (hist h_chat)).1 = [true; true; true; false] ∧
  sk_connected <$> c_socks (run true false false (hist (h_chat ++ [ODisconnect 1 true]))).1 = [false; false; true; false] ∧
  sk_connected <$> c_socks (run true false false (hist (h_chat ++ [OTransport 1 "ping timeout"]))).1 = [true; true; false; false].
Proof. split; [decide_env|]. split; [decide_env|]. split_and!; vm_compute; reflexivity. Qed.
(** What [polite] excludes: a client with protocol 3 asks twice for a namespace while its middlewares run.
    Both sockets get the same id; the first stays connected when the connection closes. *)
Definition h_p3 := [OOpen "c0" true silent (arr ""); OVerdict 0 None; OOf "/chat" None; enters 0 "/chat" ""; enters 0 "/chat" ""; OVerdict 1 None; OVerdict 2 None].
Theorem C23_same_id_refuted : ∃ (h : list (sords * op)) (os : sords) (c k : nat) (r : string) (a : sock), env_ok false false false (h ++ [(os, OTransport c r)]) ∧
  let x := (run false false false (h ++ [(os, OTransport c r)])).1 in
  c_socks x !! k = Some a ∧ sk_client a = c ∧ is_open x c = false ∧ sk_connected a = true.
Proof.
  exists (hist h_p3), os1, 0, 1, "transport close", (Sock "/chat#c0" 1 0 true true false). change (hist h_p3 ++ _) with (hist (h_p3 ++ [OTransport 0 "transport close"])).
  split; [decide_env|]. vm_compute. done.
Qed.
Print Assumptions C23_same_id_refuted.

(** ** C24 Namespace isolation *)
Theorem C24_isolated : ∀ (csr skip clean : bool) (h : list (sords * op)) (e : sords * op) (n : nat) (K : nat → Prop),
  env_ok csr skip clean (h ++ [e]) → scoped (run csr skip clean h).1 e.2 n K → isolated (run csr skip clean h) (run csr skip clean (h ++ [e])) n K.
Proof. exact c24_isolated_l. Qed.
Print Assumptions C24_isolated.
Theorem C24_broadcast : ∀ (csr skip clean : bool) (h : list (sords * op)) (os : sords) (n : nat) (data : list value) (off : string) (opts : option bopts),
  env_ok csr skip clean (h ++ [(os, OBroadcast n data off opts)]) → polite csr skip clean h →
  ∃ ks d, NoDup ks ∧ (∀ k, k ∈ ks ↔ target (run csr skip clean h).1 n opts k) ∧ stamped csr data opts off d ∧
    delivered (run csr skip clean h) (run csr skip clean (h ++ [(os, OBroadcast n data off opts)])) ks
      (Packet EVENT (name_of (run csr skip clean h).1 n) d None).
Proof. exact c24_broadcast_l. Qed.
Print Assumptions C24_broadcast.
Theorem C24_fetch : ∀ (csr skip clean : bool) (h : list (sords * op)) (os : sords) (n : nat) (opts : option bopts),
  env_ok csr skip clean h → polite csr skip clean h → sords_ok os →
  NoDup (fetch os n opts (run csr skip clean h)) ∧ ∀ k, k ∈ fetch os n opts (run csr skip clean h) ↔ target (run csr skip clean h).1 n opts k.
Proof. exact c24_fetch_l. Qed.
Print Assumptions C24_fetch.
Example C24_example : env_ok false false false (hist (h_chat ++ [OBroadcast 0 [VStr "ev"] "" (room_opts "r")])) ∧ polite false false false (hist h_chat) ∧
  fetch os1 0 (room_opts "r") (run false false false (hist h_chat)) = [0] ∧ fetch os2 1 (room_opts "r") (run false false false (hist h_chat)) = [1; 2] ∧
  (λ e, e.2) <$> skipn 10 (run false false false (hist (h_chat ++ [OBroadcast 0 [VStr "ev"] "" (room_opts "r")]))).2 = [EWrite 0 (Packet EVENT "/" [VStr "ev"] None)] ∧
  sk_connected <$> c_socks (run false false false (hist (h_chat ++ [OBulkDisconnect 0 false (room_opts "r")]))).1 = [false; true; true; false].
Proof. split; [decide_env|]. split; [decide_env|]. split_and!; vm_compute; reflexivity. Qed.

(** ** C25 Packets only reach sockets of namespaces the client has joined *)
Theorem C25_processed : ∀ (csr skip clean : bool) (h : list (sords * op)) (x : core) (e : eff) (k : nat) (p : packet),
  env_ok csr skip clean h → ids_ok (run csr skip clean h).1 → (x, e) ∈ (run csr skip clean h).2 → processes e k p → sent csr skip clean h k p.
Proof. exact c25_processed_l. Qed.
Print Assumptions C25_processed.
Theorem C25_ids : ∀ (csr skip clean : bool) (h : list (sords * op)), env_ok csr skip clean h → polite csr skip clean h → ids_ok (run csr skip clean h).1.
Proof. exact c25_ids_l. Qed.
Print Assumptions C25_ids.
Theorem C25_violation : ∀ (csr skip clean : bool) (h : list (sords * op)) (os : sords) (c : nat) (p : packet) (ans : nat → option bool) (x : arrival),
  env_ok csr skip clean (h ++ [(os, OPacket c p ans x)]) → polite csr skip clean h → is_open (run csr skip clean h).1 c = true →
  violation (run csr skip clean h).1 c p →
  let s := run csr skip clean h in let s' := run csr skip clean (h ++ [(os, OPacket c p ans x)]) in
  swept s s' c "forced server close" ∧ is_open s'.1 c = false ∧ c_tasks s'.1 = c_tasks s.1.
Proof. exact c25_violation_l. Qed.
Print Assumptions C25_violation.
Example C25_example : env_ok false false false (hist h_events) ∧ polite false false false (hist h_events) ∧
  (∃ x, (x, EDispatch 1 (Packet EVENT "/chat" [VStr "yo"] None)) ∈ (run false false false (hist h_events)).2) ∧
  violation (run false false false (hist h_chat)).1 0 (Packet CONNECT "/chat" [] None) ∧
  violation (run false false false (hist h_chat)).1 1 (Packet EVENT "/" [VStr "ev"] None).
Proof.
  split; [decide_env|]. split; [decide_env|]. split; [apply (logged _ 11); vm_compute; reflexivity|]. split.
  - left. split; [|by left]. exists 1. apply joined_dec. vm_compute. reflexivity.
  - right. split; [|done]. apply joined_not. vm_compute. reflexivity.
Qed.

(** ** C26 At most one socket per client and namespace *)
Theorem C26_one_partial : ∀ (csr skip clean : bool) (h : list (sords * op)) (c : nat) (m : string) (j k : nat),
  env_ok csr skip clean h → polite csr skip clean h → joined (run csr skip clean h).1 c m j → joined (run csr skip clean h).1 c m k → j = k.
Proof. exact c26_one_l. Qed.
Print Assumptions C26_one_partial.
Example C26_example : env_ok false false false (hist h_chat) ∧ polite false false false (hist h_chat) ∧ joined (run false false false (hist h_chat)).1 0 "/chat" 1.
Proof. split; [decide_env|]. split; [decide_env|]. apply joined_dec. vm_compute. reflexivity. Qed.
(** What [polite] excludes: two CONNECT packets for the same namespace before the middlewares of the first
    are done. *)
Theorem C26_two_refuted : ∃ (h : list (sords * op)) (c : nat) (m : string) (j k : nat), env_ok false false false h ∧
  j ≠ k ∧ joined (run false false false h).1 c m j ∧ joined (run false false false h).1 c m k.
Proof.
  exists (hist [OOpen "c0" false silent (arr ""); enters 0 "/" "s0"; enters 0 "/" "s1"; OVerdict 0 None; OVerdict 1 None]), 0, "/", 0, 1.
  split; [decide_env|]. split; [done|]. split; apply joined_dec; vm_compute; reflexivity.
Qed.
Print Assumptions C26_two_refuted.

(** ** C34 Clients can only enter declared namespaces *)
Theorem C34_declared_partial : ∀ (csr skip clean : bool) (h : list (sords * op)), env_ok csr skip clean h → asks_slashed h →
  ∀ n np, c_nsps (run csr skip clean h).1 !! n = Some np → declared csr skip clean h (np_name np).
Proof. exact c34_declared_l. Qed.
Print Assumptions C34_declared_partial.
Theorem C34_socket_partial : ∀ (csr skip clean : bool) (h : list (sords * op)) (k : nat) (a : sock), env_ok csr skip clean h → asks_slashed h →
  c_socks (run csr skip clean h).1 !! k = Some a → declared csr skip clean h (name_of (run csr skip clean h).1 (sk_nsp a)).
Proof. exact c34_socket_l. Qed.
Print Assumptions C34_socket_partial.
Theorem C34_denied : ∀ (csr skip clean : bool) (h : list (sords * op)) (os : sords) (c : nat) (p : packet) (ans : nat → option bool) (x : arrival),
  env_ok csr skip clean h → polite csr skip clean h → is_open (run csr skip clean h).1 c = true → p_type p = CONNECT →
  (¬ ∃ k, joined (run csr skip clean h).1 c (p_nsp p) k) → (¬ ∃ n, registered (run csr skip clean h).1 (p_nsp p) n) →
  (∀ q, ¬ accepts (run csr skip clean h).1 ans (p_nsp p) q) →
  step csr skip clean (os, OPacket c p ans x) (run csr skip clean h) =
    ((run csr skip clean h).1, (run csr skip clean h).2 ++
      [((run csr skip clean h).1, EWrite c (Packet CONNECT_ERROR (p_nsp p) [VMap [("message", VStr "Invalid namespace")]] None))]).
Proof. exact c34_denied_l. Qed.
Print Assumptions C34_denied.
Theorem C34_admitted_partial : ∀ (csr skip clean : bool) (h : list (sords * op)) (os : sords) (c : nat) (p : packet) (ans : nat → option bool) (x : arrival) (q : nat),
  env_ok csr skip clean h → polite csr skip clean h → sords_ok os → is_open (run csr skip clean h).1 c = true → p_type p = CONNECT → slashed (p_nsp p) →
  (¬ ∃ k, joined (run csr skip clean h).1 c (p_nsp p) k) →
  (∃ n, registered (run csr skip clean h).1 (p_nsp p) n) ∨
    accepts (run csr skip clean h).1 ans (p_nsp p) q ∧ (∀ q pa, c_parents (run csr skip clean h).1 !! q = Some pa → pa_match pa = MFun → ans q ≠ None) →
  ∃ a, c_socks (step csr skip clean (os, OPacket c p ans x) (run csr skip clean h)).1 !! length (c_socks (run csr skip clean h).1) = Some a ∧ sk_client a = c ∧
    name_of (step csr skip clean (os, OPacket c p ans x) (run csr skip clean h)).1 (sk_nsp a) = p_nsp p.
Proof. exact c34_admitted_l. Qed.
Print Assumptions C34_admitted_partial.
Example C34_example : env_ok false false true (hist h_dyn) ∧ polite false false true (hist h_dyn) ∧ asks_slashed (hist h_dyn) ∧
  (name_of (run false false true (hist h_dyn)).1 <$> (sk_nsp <$> c_socks (run false false true (hist h_dyn)).1)) = ["/d1"; "/d2"; "/d1"] ∧
  accepts (run false false true (hist h_dyn)).1 silent "/d7" 0 ∧ (∀ q, ¬ accepts (run false false true (hist h_dyn)).1 silent "/e" q).
Proof.
  split; [decide_env|]. split; [decide_env|]. split.
  { intros e He. repeat (apply elem_of_cons in He as [->|He]; [try done; by eexists|]). by apply elem_of_nil in He. }
  split; [vm_compute; reflexivity|]. split; [eexists; split; vm_compute; reflexivity|].
  apply accepts_not. vm_compute. reflexivity.
Qed.
(** A parent's function that answers after it returned: the client is told that the namespace is invalid, and
    admitted to it. *)
Definition h_async := [OOfParent MFun None; OOpen "c0" false silent (arr ""); enters 0 "/x" ""; OAnswer 0 0 "/x" (arr "s0"); OVerdict 0 None].
Theorem C34_late_answer_refuted : ∃ (h : list (sords * op)) (c k : nat) (m : string) (e : value),
  env_ok false false false h ∧ polite false false false h ∧ joined (run false false false h).1 c m k ∧
  EWrite c (Packet CONNECT_ERROR m [e] None) ∈ (run false false false h).2.*2.
Proof.
  exists (hist h_async), 0, 0, "/x". eexists. split; [decide_env|]. split; [decide_env|]. split; [apply joined_dec; vm_compute; reflexivity|].
  apply elem_of_list_lookup. exists 0. vm_compute. reflexivity.
Qed.
Print Assumptions C34_late_answer_refuted.
(** A parent's function that has not answered hides the parents after it, whatever they accept. *)
Theorem C34_hidden_parent_refuted : ∃ (h : list (sords * op)) (os : sords) (c : nat) (p : packet) (ans : nat → option bool) (x : arrival) (q : nat),
  env_ok false false false h ∧ sords_ok os ∧ is_open (run false false false h).1 c = true ∧ p_type p = CONNECT ∧ slashed (p_nsp p) ∧
  accepts (run false false false h).1 ans (p_nsp p) q ∧
  c_socks (step false false false (os, OPacket c p ans x) (run false false false h)).1 = c_socks (run false false false h).1 ∧
  (step false false false (os, OPacket c p ans x) (run false false false h)).2.*2 =
    (run false false false h).2.*2 ++ [EWrite c (Packet CONNECT_ERROR (p_nsp p) [VMap [("message", VStr "Invalid namespace")]] None)].
Proof.
  exists (hist [OOfParent MFun None; OOfParent (MRegex starts_d) None; OOpen "c0" false silent (arr "")]), os1, 0, (Packet CONNECT "/d" [] None), silent, (arr "s"), 1.
  split; [decide_env|]. split; [apply os1_ok|]. split; [done|]. split; [done|]. split; [by eexists|]. split; [eexists; split; vm_compute; reflexivity|].
  split; vm_compute; reflexivity.
Qed.
Print Assumptions C34_hidden_parent_refuted.
(** A name without leading slash (Client.connect does not add it) that a parent accepts: the client enters the
    namespace with the slash, which nobody declared. *)
Definition starts_x (m : string) : bool := bool_decide (m = "x").
Theorem C34_no_slash_refuted : ∃ (h : list (sords * op)) (k : nat) (a : sock), env_ok false false false h ∧
  c_socks (run false false false h).1 !! k = Some a ∧ ¬ declared false false false h (name_of (run false false false h).1 (sk_nsp a)).
Proof.
  exists (hist [OOfParent (MRegex starts_x) None; OOpen "c0" false silent (arr ""); enters 0 "x" "s0"]), 0, (Sock "s0" 2 0 false true false).
  split; [decide_env|]. split; [vm_compute; reflexivity|]. intros [H|(h1 & e & h2 & E & Hd)]; [by vm_compute in H|].
  assert (e.2 = OOfParent (MRegex starts_x) None ∨ e.2 = OOpen "c0" false silent (arr "") ∨ e.2 = enters 0 "x" "s0") as He.
  { assert (e ∈ hist [OOfParent (MRegex starts_x) None; OOpen "c0" false silent (arr ""); enters 0 "x" "s0"]) as He by (rewrite E; set_solver).
    repeat (apply elem_of_cons in He as [->|He]; [by auto|]). by apply elem_of_nil in He. }
  destruct He as [He|[He|He]]; rewrite He in Hd; inversion Hd.
Qed.
Print Assumptions C34_no_slash_refuted.

(** ** C35 Of returns one namespace per name *)
Theorem C35_known : ∀ (csr skip clean : bool) (h : list (sords * op)) (os : sords) (raw m : string) (fn : option nat) (n : nat),
  env_ok csr skip clean (h ++ [(os, OOf raw fn)]) → canon raw m → registered (run csr skip clean h).1 m n →
  run csr skip clean (h ++ [(os, OOf raw fn)]) = match fn with Some f => upd_nsp n (np_add_on f) (run csr skip clean h) | None => run csr skip clean h end.
Proof. exact c35_known_l. Qed.
Print Assumptions C35_known.
Theorem C35_new_partial : ∀ (csr skip clean : bool) (h : list (sords * op)) (os : sords) (raw m : string) (fn : option nat),
  env_ok csr skip clean (h ++ [(os, OOf raw fn)]) → canon raw m → (¬ ∃ n, registered (run csr skip clean h).1 m n) →
  let n := length (c_nsps (run csr skip clean h).1) in let s' := run csr skip clean (h ++ [(os, OOf raw fn)]) in
  registered s'.1 m n ∧ (∃ x, s'.2 = (run csr skip clean h).2 ++ [(x, ENewNsp n)]) ∧
  (∃ np, c_nsps s'.1 = c_nsps (run csr skip clean h).1 ++ [np] ∧ np_name np = m ∧ np_sockets np = ∅ ∧
     ((∀ q, ¬ accepts (run csr skip clean h).1 (λ _, None) m q) → np_parent np = None ∧ np_on np = match fn with Some f => [f] | None => [] end)).
Proof. exact c35_new_l. Qed.
Print Assumptions C35_new_partial.
(** Every namespace but the first is announced, once, when it is created. *)
Theorem C35_once : ∀ (csr skip clean : bool) (h : list (sords * op)), env_ok csr skip clean h →
  announced (run csr skip clean h).2 = seq 1 (length (c_nsps (run csr skip clean h).1) - 1).
Proof. exact c35_once_l. Qed.
Print Assumptions C35_once.
Example C35_example : env_ok false false false (hist [OOf "chat" (Some 1); OOf "/chat" (Some 2); OOf "chat" None; OOf "" (Some 3)]) ∧
  canon "chat" "/chat" ∧ canon "/chat" "/chat" ∧ canon "" "/" ∧
  (λ np, (np_name np, np_on np)) <$> c_nsps (run false false false (hist [OOf "chat" (Some 1); OOf "/chat" (Some 2); OOf "chat" None; OOf "" (Some 3)])).1 =
    [("/", [3]); ("/chat", [1; 2])].
Proof.
  split; [decide_env|]. assert (¬ slashed "chat" ∧ ¬ slashed "") as [H1 H2] by (split; intros (t & [=])).
  split; [split; [by eexists|by right]|]. split; [split; [by eexists|by left]|]. split; [split; [by eexists|by right]|]. vm_compute. reflexivity.
Qed.
(** Of(name, fn) for a name a regular expression matches: the handler is not registered. *)
Theorem C35_handler_refuted : ∃ (h : list (sords * op)) (os : sords) (f n : nat), env_ok false false false (h ++ [(os, OOf "/d1" (Some f))]) ∧
  let x := (run false false false (h ++ [(os, OOf "/d1" (Some f))])).1 in registered x "/d1" n ∧ np_on <$> c_nsps x !! n = Some [].
Proof.
  exists (hist [OOfParent (MRegex starts_d) None]), os1, 5, 1. change (hist _ ++ _) with (hist [OOfParent (MRegex starts_d) None; OOf "/d1" (Some 5)]).
  split; [decide_env|]. split; vm_compute; reflexivity.
Qed.
Print Assumptions C35_handler_refuted.

(** ** C36 Empty child namespaces are removed, others are not *)
Theorem C36_never : ∀ (csr skip : bool) (h1 h2 : list (sords * op)) (m : string) (n : nat), env_ok csr skip false (h1 ++ h2) →
  registered (run csr skip false h1).1 m n → registered (run csr skip false (h1 ++ h2)).1 m n.
Proof. intros csr skip h1 h2 m n He. exact (c36_never_lost_l csr skip false h1 h2 m n He eq_refl). Qed.
Print Assumptions C36_never.
(** A child without sockets that some socket has left is no longer registered. *)
Theorem C36_removed : ∀ (csr skip : bool) (h : list (sords * op)) (n : nat) (np : nspc) (p k : nat), env_ok csr skip true h →
  c_nsps (run csr skip true h).1 !! n = Some np → np_parent np = Some p → np_sockets np = ∅ →
  (∃ a, c_socks (run csr skip true h).1 !! k = Some a ∧ sk_nsp a = n) → closed (run csr skip true h).1 k → ¬ registered (run csr skip true h).1 (np_name np) n.
Proof. intros csr skip h n np p k He. exact (c36_empty_l csr skip true h n np p k He eq_refl). Qed.
Print Assumptions C36_removed.
(** Exactly which namespaces are registered, and that those of connected sockets are, if no attempt outlives its
    namespace. *)
Theorem C36_exact_partial : ∀ (csr skip clean : bool) (h : list (sords * op)) (n : nat) (np : nspc),
  env_ok csr skip clean h → polite csr skip clean h → attended csr skip clean h → c_nsps (run csr skip clean h).1 !! n = Some np →
  registered (run csr skip clean h).1 (np_name np) n ↔
    clean = false ∨ np_parent np = None ∨ np_sockets np ≠ ∅ ∨
    ∀ k a, c_socks (run csr skip clean h).1 !! k = Some a → sk_nsp a = n → ¬ closed (run csr skip clean h).1 k.
Proof. exact c36_exact_l. Qed.
Print Assumptions C36_exact_partial.
Theorem C36_connected_partial : ∀ (csr skip clean : bool) (h : list (sords * op)) (k : nat) (a : sock),
  env_ok csr skip clean h → polite csr skip clean h → attended csr skip clean h → c_socks (run csr skip clean h).1 !! k = Some a → sk_connected a = true →
  registered (run csr skip clean h).1 (name_of (run csr skip clean h).1 (sk_nsp a)) (sk_nsp a).
Proof. exact c36_registered_l. Qed.
Print Assumptions C36_connected_partial.
Example C36_example : env_ok false false true (hist (h_dyn ++ [ODisconnect 1 false; ODisconnect 2 false])) ∧
  polite false false true (hist (h_dyn ++ [ODisconnect 1 false; ODisconnect 2 false])) ∧
  attended false false true (hist (h_dyn ++ [ODisconnect 1 false; ODisconnect 2 false])) ∧
  c_reg (run false false true (hist h_dyn)).1 = {["/" := 0; "/d1" := 1; "/d2" := 2]} ∧
  c_reg (run false false true (hist (h_dyn ++ [ODisconnect 1 false; ODisconnect 2 false]))).1 = {["/" := 0; "/d1" := 1]}.
Proof. split; [decide_env|]. split; [decide_env|]. split; [decide_env|]. split; by_eval. Qed.
(** What [attended] excludes: the last socket leaves while another is being admitted.  That one is then connected
    to a namespace that is no longer registered. *)
Theorem C36_orphan_refuted : ∃ (h : list (sords * op)) (k : nat) (a : sock), env_ok false false true h ∧ polite false false true h ∧
  c_socks (run false false true h).1 !! k = Some a ∧ sk_connected a = true ∧
  ¬ ∃ n, registered (run false false true h).1 (name_of (run false false true h).1 (sk_nsp a)) n.
Proof.
  exists (hist (h_orphan ++ [OVerdict 1 None])), 1, (Sock "s1" 1 1 true true false). split; [decide_env|]. split; [decide_env|]. split; [vm_compute; reflexivity|]. split; [done|].
  intros (n & H). vm_compute in H. done.
Qed.
Print Assumptions C36_orphan_refuted.
(** ... or, if it is refused, unregisters the namespace of the same name created since, which has a connected
    socket. *)
Theorem C36_unregistered_refuted : ∃ (h : list (sords * op)) (os : sords) (j k : nat) (err : value) (a : sock),
  env_ok false false true (h ++ [(os, OVerdict j (Some err))]) ∧ polite false false true (h ++ [(os, OVerdict j (Some err))]) ∧
  c_socks (run false false true h).1 !! k = Some a ∧ sk_connected a = true ∧ j ≠ k ∧
  registered (run false false true h).1 (name_of (run false false true h).1 (sk_nsp a)) (sk_nsp a) ∧
  ¬ registered (run false false true (h ++ [(os, OVerdict j (Some err))])).1 (name_of (run false false true h).1 (sk_nsp a)) (sk_nsp a).
Proof.
  exists (hist (h_orphan ++ [enters 0 "/d1" "s2"; OVerdict 2 None])), os1, 1, 2, VNil, (Sock "s2" 2 0 true true false).
  change (hist (h_orphan ++ [enters 0 "/d1" "s2"; OVerdict 2 None]) ++ _) with (hist (h_orphan ++ [enters 0 "/d1" "s2"; OVerdict 2 None; OVerdict 1 (Some VNil)])).
  split; [decide_env|]. split; [decide_env|]. split; [vm_compute; reflexivity|]. split; [done|]. split; [done|]. split; [vm_compute; reflexivity|].
  intros H. vm_compute in H. done.
Qed.
Print Assumptions C36_unregistered_refuted.

(** ** C37 A parent namespace broadcasts the same event to every child *)
Theorem C37_emit : ∀ (csr skip clean : bool) (h : list (sords * op)) (os : sords) (p : nat) (data : list value) (off : nat → string),
  env_ok csr skip clean (h ++ [(os, OParentEmit p data off)]) → polite csr skip clean h → p < length (c_parents (run csr skip clean h).1) →
  let opts := Some (BOpts (Some ∅) (Some ∅) (Some (Flags false false false false false false None false))) in
  ∃ L d, reaches (run csr skip clean h).1 p opts L ∧ (∀ n, stamped csr data opts (off n) (d n)) ∧
    relayed (run csr skip clean h) (run csr skip clean (h ++ [(os, OParentEmit p data off)])) L
      (λ n, Packet EVENT (name_of (run csr skip clean h).1 n) (d n) None).
Proof. exact c37_emit_l. Qed.
Print Assumptions C37_emit.
(** Through To, Except...: without connection state recovery. *)
Theorem C37_broadcast_partial : ∀ (skip clean : bool) (h : list (sords * op)) (os : sords) (p : nat) (data : list value) (off : nat → string) (opts : option bopts),
  env_ok false skip clean (h ++ [(os, OParentBroadcast p data off opts)]) → polite false skip clean h → p < length (c_parents (run false skip clean h).1) →
  ∃ L, reaches (run false skip clean h).1 p opts L ∧
    relayed (run false skip clean h) (run false skip clean (h ++ [(os, OParentBroadcast p data off opts)])) L
      (λ n, Packet EVENT (name_of (run false skip clean h).1 n) data None).
Proof. intros skip clean h os p data off opts He Hn Hp. exact (c37_broadcast_l false skip clean h os p data off opts He Hn Hp eq_refl). Qed.
Print Assumptions C37_broadcast_partial.
Definition written (l : list (core * eff)) : list (nat * string * list value) := omap (λ e, match e.2 with EWrite c p => Some (c, p_nsp p, p_data p) | _ => None end) l.
Example C37_example : env_ok false false true (hist (h_dyn ++ [OParentBroadcast 0 [VStr "ev"] (λ _, "") (room_opts "r")])) ∧ polite false false true (hist h_dyn) ∧
  written (skipn 11 (run false false true (hist (h_dyn ++ [OParentBroadcast 0 [VStr "ev"] (λ _, "") (room_opts "r")]))).2) = [(1, "/d1", [VStr "ev"])] ∧
  written (skipn 11 (run false false true (hist (h_dyn ++ [OParentEmit 0 [VStr "ev"] (λ _, "")]))).2) =
    [(0, "/d1", [VStr "ev"]); (1, "/d1", [VStr "ev"]); (1, "/d2", [VStr "ev"])].
Proof. split; [decide_env|]. split; [decide_env|]. split; vm_compute; reflexivity. Qed.
(** With connection state recovery every child appends its identifier to the same packet: the second child's
    sockets receive one argument more than the first's. *)
Theorem C37_recovery_refuted : ∃ (h : list (sords * op)) (os : sords) (p : nat) (data : list value) (off : nat → string) (opts : option bopts) (c1 c2 : nat) (m1 m2 o1 o2 : string),
  env_ok true false false (h ++ [(os, OParentBroadcast p data off opts)]) ∧ polite true false false h ∧
  (run true false false (h ++ [(os, OParentBroadcast p data off opts)])).2.*2 = (run true false false h).2.*2 ++
    [EWrite c1 (Packet EVENT m1 (data ++ [VStr o1]) None); EWrite c2 (Packet EVENT m2 (data ++ [VStr o1; VStr o2]) None)].
Proof.
  exists (hist [OOfParent (MRegex starts_d) None; OOpen "c0" false silent (arr ""); OOpen "c1" false silent (arr "");
    enters 0 "/d1" "s0"; OVerdict 0 None; enters 1 "/d2" "s1"; OVerdict 1 None]), os1, 0, [VStr "ev"], (λ n, if decide (n = 1) then "x1" else "x2"), all_opts, 0, 1, "/d1", "/d2", "x1", "x2".
  change (hist ?l ++ [(os1, ?o)]) with (hist (l ++ [o])).
  split; [decide_env|]. split; [decide_env|]. vm_compute. reflexivity.
Qed.
Print Assumptions C37_recovery_refuted.

(** ** C45 Server shutdown disconnects everybody *)
Theorem C45_shutdown_partial : ∀ (csr skip clean : bool) (h : list (sords * op)) (os : sords),
  env_ok csr skip clean (h ++ [(os, OShutdown)]) → polite csr skip clean h → attended csr skip clean h →
  let s := run csr skip clean h in let s' := run csr skip clean (h ++ [(os, OShutdown)]) in
  ∀ k a, c_socks s.1 !! k = Some a →
    if sk_connected a
    then closed s'.1 k ∧ lives k s'.2 = lives k s.2 ++ [LDisconnecting "server shutting down"; LDisconnect "server shutting down"]
    else c_socks s'.1 !! k = Some a ∧ lives k s'.2 = lives k s.2.
Proof. exact c45_shutdown_l. Qed.
Print Assumptions C45_shutdown_partial.
Example C45_example : env_ok true false true (hist (h_dyn ++ [OShutdown])) ∧ polite true false true (hist h_dyn) ∧ attended true false true (hist h_dyn) ∧
  sk_connected <$> c_socks (run true false true (hist h_dyn)).1 = [true; true; true] ∧
  sk_connected <$> c_socks (run true false true (hist (h_dyn ++ [OShutdown]))).1 = [false; false; false].
Proof. split; [decide_env|]. split; [decide_env|]. split; [decide_env|]. split; vm_compute; reflexivity. Qed.
(** What [attended] excludes: a socket connected to a namespace that is no longer registered is not reached. *)
Theorem C45_orphan_refuted : ∃ (h : list (sords * op)) (os : sords) (k : nat), env_ok false false true (h ++ [(os, OShutdown)]) ∧ polite false false true h ∧
  connected (run false false true (h ++ [(os, OShutdown)])).1 k.
Proof.
  exists (hist (h_orphan ++ [OVerdict 1 None])), os1, 1. change (hist ?l ++ [(os1, ?o)]) with (hist (l ++ [o])).
  split; [decide_env|]. split; [decide_env|]. apply connected_dec. vm_compute. reflexivity.
Qed.
Print Assumptions C45_orphan_refuted.
