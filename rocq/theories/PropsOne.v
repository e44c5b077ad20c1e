(** Property C58: operations addressed to one socket of a cluster.  Socket.Emit with connection state recovery
    (socket/socket.go:303-309) and the methods of a RemoteSocket (socket/remote-socket.go:57-117) address
    the room named by the id of the socket. *)
From Verif Require Import Base GoTypes Rooms Adapter AdapterSpec Operator OperatorSpec Cluster ClusterSpec OneSocketSpec OneSocketProofs OneSocketExamples.

(** ** Emission
    [h1]: what happened before the call, [h2]: after.  The rooms named by ids of sockets are left alone, and no id is
    in use twice.  Every server writes the packet once to the socket [id] if it is open there when the server
    handles the call, and to nobody otherwise. *)
Theorem C58_emit : ∀ (csr : bool) (uids : gset string) h1 n ty ack data id f off echo e1 e2 os h2,
  let op := CCall n (GBroadcast ty ack data) (Some (to_one id f)) (Some off) echo e1 e2 os in
  let k := length h1 in let h := h1 ++ op :: h2 in let final := crun csr uids h in
  Forall (cop_ok uids) h → disciplined csr uids h → opened h id → fl_local f = false →
  ∃ d, with_offset csr ty ack data (Some (to_one id f)) off d ∧
    one_if (open_on (crun csr uids h1) n id) (id, d) (writes final n k) ∧
    ∀ m, m ∈ uids → m ≠ n →
      (in_flight final m k = 1 ∧ writes final m k = []) ∨
      (in_flight final m k = 0 ∧ ∃ a op' b, h2 = a ++ op' :: b ∧ delivers (crun csr uids (h1 ++ op :: a)) op' m k ∧
         one_if (open_on (crun csr uids (h1 ++ op :: a)) m id) (id, d) (writes final m k)).
Proof. exact one_emit. Qed.
Print Assumptions C58_emit.
(** A socket that stays on its server [m] gets the packet once, when [m] has handled the call; nobody else gets it. *)
Theorem C58_stays : ∀ (csr : bool) (uids : gset string) h1 n ty ack data id f off echo e1 e2 os h2 m,
  let op := CCall n (GBroadcast ty ack data) (Some (to_one id f)) (Some off) echo e1 e2 os in
  let k := length h1 in let h := h1 ++ op :: h2 in let final := crun csr uids h in
  Forall (cop_ok uids) h → disciplined csr uids h → fl_local f = false → m ∈ uids →
  open_on (crun csr uids h1) m id → (∀ a b, h2 = a ++ b → open_on (crun csr uids (h1 ++ op :: a)) m id) → in_flight final m k = 0 ∨ m = n →
  ∃ d, with_offset csr ty ack data (Some (to_one id f)) off d ∧ writes final m k = [(id, d)] ∧ ∀ m', m' ≠ m → writes final m' k = [].
Proof. exact one_stays. Qed.
Print Assumptions C58_stays.
(** A socket that is only ever opened on one server [m0] gets the packet at most once, and nobody else gets it. *)
Theorem C58_at_most_once : ∀ (csr : bool) (uids : gset string) h1 n ty ack data id f off echo e1 e2 os h2 m0,
  let op := CCall n (GBroadcast ty ack data) (Some (to_one id f)) (Some off) echo e1 e2 os in
  let k := length h1 in let h := h1 ++ op :: h2 in let final := crun csr uids h in
  Forall (cop_ok uids) h → disciplined csr uids h → opened h id → fl_local f = false → (∀ m, CLocal m (LOpen id) ∈ h → m = m0) →
  ∃ d, with_offset csr ty ack data (Some (to_one id f)) off d ∧ (writes final m0 k = [] ∨ writes final m0 k = [(id, d)]) ∧ ∀ m, m ≠ m0 → writes final m k = [].
Proof. exact one_at_most_once. Qed.
Print Assumptions C58_at_most_once.
Example C58_example : let h2 := [CLocal "C" (LOpen "c"); one_deliver 0; one_deliver 0] in let h := one_setup ++ one_bcast "C" "b" :: h2 in
  Forall (cop_ok one_uids) h ∧ disciplined true one_uids h ∧ opened h "b" ∧ open_on (crun true one_uids one_setup) "B" "b" ∧
  (∀ m, CLocal m (LOpen "b") ∈ h → m = "B") ∧
  (in_flight (crun true one_uids h) "A" 4, in_flight (crun true one_uids h) "B" 4) = (0, 0) ∧
  one_writes_of (crun true one_uids h) 4 = [("B", ("b", [VStr "ev"; VStr "7"]))].
Proof.
  split; [one_ok|]. split; [one_disc|]. split; [exists "B"; cbn; apply elem_of_list_further, elem_of_list_further, elem_of_list_here|].
  split; [one_open|]. split; [|split; [by_eval|vm_compute; reflexivity]].
  intros m H. cbn in H. repeat (apply elem_of_cons in H as [H|H]; [by inversion H|]). by apply elem_of_nil in H.
Qed.

(** ** Joining, leaving, disconnecting
    On the calling server, and on any server when it handles the message: the socket [id] alone is affected, if it
    is open there. *)
Theorem C58_bulk : ∀ (csr : bool) (uids : gset string) h1 n g id f pub echo e1 e2 os,
  let op := CCall n g (Some (to_one id f)) pub echo e1 e2 os in let h := h1 ++ [op] in
  Forall (cop_ok uids) h → disciplined csr uids h → opened h id → (∀ ty ack data, g ≠ GBroadcast ty ack data) →
  (∃ nd nd', cl_nodes (crun csr uids h1) !! n = Some nd ∧ cl_nodes (crun csr uids h) !! n = Some nd' ∧ acts_on_one g id nd nd') ∧
  (∀ m, m ≠ n → cl_nodes (crun csr uids h) !! m = cl_nodes (crun csr uids h1) !! m).
Proof. exact one_bulk_call. Qed.
Print Assumptions C58_bulk.
Theorem C58_bulk_handled : ∀ (csr : bool) (uids : gset string) h1 n g id f off echo e1 e2 os h2 op' m,
  let op := CCall n g (Some (to_one id f)) (Some off) echo e1 e2 os in
  let h := h1 ++ op :: h2 ++ [op'] in let s := crun csr uids (h1 ++ op :: h2) in let s' := crun csr uids h in
  Forall (cop_ok uids) h → disciplined csr uids h → opened h id → (∀ ty ack data, g ≠ GBroadcast ty ack data) → delivers s op' m (length h1) →
  (m ≠ n → ∃ nd nd', cl_nodes s !! m = Some nd ∧ cl_nodes s' !! m = Some nd' ∧ acts_on_one g id nd nd') ∧
  (∀ m', m' ≠ m ∨ m = n → cl_nodes s' !! m' = cl_nodes s !! m').
Proof. exact one_bulk_deliver. Qed.
Print Assumptions C58_bulk_handled.
Example C58_bulk_example : let h1 := one_setup in let h2 := [one_deliver 1] in
  let h g := h1 ++ one_call "A" g "b" (Some "7") :: h2 in
  let view h := (λ nd, (elements (dom (ns_sockets nd)), elements (members_of (ns_reg nd) "y"), elements (members_of (ns_reg nd) "x"))) <$> cl_nodes (crun true one_uids h) in
  Forall (cop_ok one_uids) (h (GJoin ["y"]) ++ [one_deliver 0]) ∧ disciplined true one_uids (h (GJoin ["y"]) ++ [one_deliver 0]) ∧
  delivers (crun true one_uids (h (GJoin ["y"]))) (one_deliver 0) "B" 4 ∧
  view (h (GJoin ["y"])) !! "B" = Some (["b"], [], ["b"]) ∧ view (h (GJoin ["y"]) ++ [one_deliver 0]) !! "B" = Some (["b"], ["b"], ["b"]) ∧
  view (h (GLeave ["x"]) ++ [one_deliver 0]) !! "B" = Some (["b"], [], []) ∧ view (h GDisconnect ++ [one_deliver 0]) !! "B" = Some ([], [], []) ∧
  view (h GDisconnect ++ [one_deliver 0]) !! "A" = Some (["a"], [], ["a"]).
Proof. split; [one_ok|]. split; [one_disc|]. split; [split; by_eval|]. split_and!; by_eval. Qed.

(** ** Where these options come from
    The operator of a RemoteSocket made at any point of a history, whatever is called later on it, on other operators, or on
    sockets, with any number of calls of Timeout: one socket is addressed, on all servers, a single reply is expected. *)
Theorem C58_remote : ∀ cs ad id cs2 ts ev args, ev ∉ reserved →
  let w := run_calls (cs ++ CRemote ad id :: cs2) world0 in
  ∃ b f e, w_ops w !! length (w_ops (run_calls cs world0)) = Some b ∧
    fl_single f = true ∧ fl_local f = false ∧ fl_volatile f = false ∧ fl_timeout f = last ts ∧
    let '(b', h') := run_chain (MTimeout <$> ts) b (w_heap w) in
      denote h' b' = Some (Target ad {[id]} ∅ f) ∧ op_emit ev args b' h' = Some e ∧ emission_opts e = Some (to_one id f).
Proof. exact remote_one. Qed.
Print Assumptions C58_remote.
(** An emission of a socket, with connection state recovery: one socket is addressed, with the modifiers called since its last
    emission. *)
Theorem C58_socket : ∀ cs0 k id ad cs i ev args, w_socks (run_calls cs0 world0) !! k = None → ev ∉ reserved →
  ∃ f data, (run_call (CSockEmit k true i ev args) (run_calls (cs0 ++ CSocket k id ad :: cs) world0)).2 = Some (EBroadcast ad data (to_one id f)) ∧
    flags_law (pending k cs []) f ∧ ((∀ n, last args ≠ Some (VAck n)) → data = VStr ev :: args) ∧ (∀ as' n, args = as' ++ [VAck n] → data = VStr ev :: as').
Proof. exact socket_one. Qed.
Print Assumptions C58_socket.
Example C58_options_example :
  w_socks (run_calls [CRemote 0 "b"] world0) !! 0 = None ∧ "ev" ∉ reserved ∧
  (run_call (COpEmit 0 "ev" [VStr "x"]) (run_calls [CRemote 0 "b"; CModif 0 (MTo ["y"]); CModif 0 (MTimeout 5)] world0)).2
    = Some (EBroadcast 0 [VStr "ev"; VStr "x"] (to_one "b" one_flags)) ∧
  (run_call (CSockEmit 0 true 3 "ev" [VStr "x"; VAck 1]) (run_calls [CRemote 0 "b"; CSocket 0 "a" 0; CSockFlag 0 MVolatile] world0)).2
    = Some (EBroadcast 0 [VStr "ev"; VStr "x"] (to_one "a" (set_volatile no_flags))).
Proof. split; [by_eval|]. split; [by_eval|]. split; vm_compute; reflexivity. Qed.

(** ** What goes wrong otherwise *)
(** A socket that left the room named by its id is not reached. *)
Theorem C58_left_own_refuted : ∃ (h1 h2 : list cop), let op := one_bcast "C" "a" in
  let h := h1 ++ op :: h2 in Forall (cop_ok one_uids) h ∧ ids_distinct true one_uids h ∧
  (∀ x, x ∈ h1 ∨ x ∈ h2 → spares h x ∨ x = CLocal "A" (LLeave "a" "a")) ∧
  (∀ i, open_on (crun true one_uids (h1 ++ op :: take i h2)) "A" "a") ∧ cl_net (crun true one_uids h) = [] ∧ one_writes_of (crun true one_uids h) (length h1) = [].
Proof.
  exists (one_setup ++ [CLocal "A" (LLeave "a" "a")]), [one_deliver 0; one_deliver 0]. cbv zeta.
  split; [one_ok|]. split; [apply distinct_test; vm_compute; reflexivity|]. split.
  { intros x Hx. assert (x ∈ (one_setup ++ [CLocal "A" (LLeave "a" "a")]) ++ [one_deliver 0; one_deliver 0]) as H by (apply elem_of_app; exact Hx). clear Hx. cbn in H.
    assert (∀ r, opened ((one_setup ++ [CLocal "A" (LLeave "a" "a")]) ++ one_bcast "C" "a" :: [one_deliver 0; one_deliver 0]) r → r ∈ ["a"; "b"]) as Hop by (intros r Hr%opened_list_spec; exact Hr).
    repeat (apply elem_of_cons in H as [->|H]; [first [by right|left; cbn; try done; intros r Hr Ho; apply Hop in Ho; set_solver]|]). by apply elem_of_nil in H. }
  split; [|split; [|vm_compute; reflexivity]].
  - intros [|[|i]]; cbn [take]; rewrite ?take_nil; one_open.
  - vm_compute. reflexivity.
Qed.
Print Assumptions C58_left_own_refuted.
(** Another socket that joined the room named by the id is reached as well. *)
Theorem C58_other_member_refuted : ∃ (h1 h2 : list cop), let op := one_bcast "C" "a" in
  let h := h1 ++ op :: h2 in Forall (cop_ok one_uids) h ∧ ids_distinct true one_uids h ∧
  one_writes_of (crun true one_uids h) (length h1) = [("A", ("a", [VStr "ev"; VStr "7"])); ("B", ("b", [VStr "ev"; VStr "7"]))].
Proof.
  exists (one_setup ++ [CLocal "B" (LJoin "b" ["a"])]), [one_deliver 0; one_deliver 0]. cbv zeta.
  split; [one_ok|]. split; [apply distinct_test; vm_compute; reflexivity|]. vm_compute. reflexivity.
Qed.
Print Assumptions C58_other_member_refuted.
(** A client that comes back on another server under the same id, its session being recovered, while the message is on its
    way: the packet is written to both of its connections, ... *)
Theorem C58_moved_twice_refuted : ∃ (h1 h2 : list cop), let op := one_bcast "A" "a" in
  let h := h1 ++ op :: h2 in Forall (cop_ok one_uids) h ∧ disciplined true one_uids h ∧
  one_writes_of (crun true one_uids h) (length h1) = [("A", ("a", [VStr "ev"; VStr "7"])); ("B", ("a", [VStr "ev"; VStr "7"]))].
Proof.
  exists one_setup, [CLocal "A" (LClose "a" ord_std); CLocal "B" (LOpen "a"); one_deliver 0; one_deliver 0]. cbv zeta.
  split; [one_ok|]. split; [one_disc|]. vm_compute. reflexivity.
Qed.
Print Assumptions C58_moved_twice_refuted.
(** ... or to none of them, though no message is left. *)
Theorem C58_moved_missed_refuted : ∃ (h1 h2 : list cop), let op := one_bcast "C" "a" in
  let h := h1 ++ op :: h2 in Forall (cop_ok one_uids) h ∧ disciplined true one_uids h ∧
  open_on (crun true one_uids h1) "A" "a" ∧ open_on (crun true one_uids h) "B" "a" ∧ cl_net (crun true one_uids h) = [] ∧
  one_writes_of (crun true one_uids h) (length h1) = [].
Proof.
  exists one_setup, [one_deliver 0; CLocal "A" (LClose "a" ord_std); CLocal "B" (LOpen "a"); one_deliver 0]. cbv zeta.
  split; [one_ok|]. split; [one_disc|]. split; [one_open|]. split; [one_open|]. split; vm_compute; reflexivity.
Qed.
Print Assumptions C58_moved_missed_refuted.
(** When the message cannot be published, not even a socket of the emitting server gets it: with connection state recovery,
    Socket.Emit on a socket of this very server writes nothing. *)
Theorem C58_own_server_refuted : ∃ (h1 : list cop), let op := one_call "A" (GBroadcast EVENT false [VStr "ev"]) "a" None in
  let h := h1 ++ [op] in Forall (cop_ok one_uids) h ∧ disciplined true one_uids h ∧ open_on (crun true one_uids h1) "A" "a" ∧
  open_on (crun true one_uids h) "A" "a" ∧ cl_net (crun true one_uids h) = [] ∧ one_writes_of (crun true one_uids h) (length h1) = [].
Proof.
  exists one_setup. cbv zeta. split; [one_ok|]. split; [one_disc|]. split; [one_open|]. split; [one_open|]. split; vm_compute; reflexivity.
Qed.
Print Assumptions C58_own_server_refuted.
