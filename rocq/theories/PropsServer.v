(** Property C66: the server refines a server without tables. *)
From Verif Require Import Base GoTypes Rooms Adapter AdapterSpec Session System SystemSpec SystemExamples ServerSpec ServerProofs ServerSteps.

(** ** C66 A server without tables
    [u_run] is a server that keeps one list of sockets, each with its own set of rooms and its place, and no table: neither the two maps
    of the room registry, nor the sockets of a namespace or of a connection, nor the namespaces of a connection.  It has one definition
    per operation and ranges over no map.  After every history in which the environment behaves and ids are not used twice, what is
    visible of the real server is this server. *)
Theorem C66_state : ∀ (csr skip clean : bool) (h : list (sords * op)), env_ok csr skip clean h → polite csr skip clean h →
  seen (run csr skip clean h).1 = u_run csr skip clean h.
Proof. exact c66_state_l. Qed.
Print Assumptions C66_state.
(** And each step has the same effects: packets written, events fired, connections closed, namespaces announced.  Within one step their
    order may differ, for it depends on the order of Go's maps. *)
Theorem C66_effects : ∀ (csr skip clean : bool) (h : list (sords * op)) (e : sords * op), env_ok csr skip clean (h ++ [e]) → polite csr skip clean (h ++ [e]) →
  ∃ l, (run csr skip clean (h ++ [e])).2 = (run csr skip clean h).2 ++ l ∧ l.*2 ≡ₚ (u_step csr skip clean e (u_run csr skip clean h)).2.
Proof. exact c66_effects_l. Qed.
Print Assumptions C66_effects.
(** The order in which Go ranges over its maps is not visible, but for the order in which parent namespaces are asked. *)
Theorem C66_orders : ∀ (csr skip clean : bool) (h h' : list (sords * op)), Forall2 (λ e e', e.2 = e'.2 ∧ ∀ l, so_parents e.1 l = so_parents e'.1 l) h h' →
  env_ok csr skip clean h → polite csr skip clean h → env_ok csr skip clean h' → polite csr skip clean h' →
  seen (run csr skip clean h).1 = seen (run csr skip clean h').1.
Proof. exact c66_orders_l. Qed.
Print Assumptions C66_orders.
(** Nor in the effects, but for the order of the children of a parent namespace (the offset that one child adds reaches the next, C45). *)
Theorem C66_orders_effects : ∀ (csr skip clean : bool) (h h' : list (sords * op)) (os os' : sords) (o : op),
  Forall2 (λ e e', e.2 = e'.2 ∧ ∀ l, so_parents e.1 l = so_parents e'.1 l) h h' →
  (∀ l, so_parents os l = so_parents os' l) → (∀ X, so_children os X = so_children os' X) →
  env_ok csr skip clean (h ++ [(os, o)]) → polite csr skip clean (h ++ [(os, o)]) → env_ok csr skip clean (h' ++ [(os', o)]) → polite csr skip clean (h' ++ [(os', o)]) →
  ∃ l l', (run csr skip clean (h ++ [(os, o)])).2 = (run csr skip clean h).2 ++ l ∧ (run csr skip clean (h' ++ [(os', o)])).2 = (run csr skip clean h').2 ++ l' ∧ l.*2 ≡ₚ l'.*2.
Proof. exact c66_orders_effects_l. Qed.
Print Assumptions C66_orders_effects.

Ltac decide_env := first [apply env_dec; [apply hist_ok|] | apply polite_dec]; vm_compute; reflexivity.
(** Client 0 is in "/" and "/chat", client 1 in "/chat"; a third is refused; everybody in "q" is disconnected with the connection. *)
Definition h_served : list op := h_chat ++ [OVerdict 3 (Some (VStr "no")); OLeave 0 "r"; says 1 "/chat" [VStr "ev"]; OTask 0;
  OBroadcast 1 [VStr "ev"] "o" (room_opts "r"); OBulkDisconnect 1 true (room_opts "q")].
Definition places (v : userver) : list (string * place) := (λ a, (u_id a, u_place a)) <$> us_socks v.
Example C66_example : env_ok false false false (hist h_served) ∧ polite false false false (hist h_served) ∧
  places (u_run false false false (hist h_served)) = [("s0", Here); ("s1", Here); ("s2", Gone); ("s3", Gone)] ∧
  bool_decide ((u_rooms <$> us_socks (u_run false false false (hist h_served))) = [{["s0"]}; {["s1"; "r"]}; ∅; ∅]) = true ∧
  uc_open <$> us_clients (u_run false false false (hist h_served)) = [true; false; true].
Proof. split; [decide_env|]. split; [decide_env|]. split_and!; vm_compute; reflexivity. Qed.
(** The last step: one packet, two events, one connection closed. *)
Example C66_effects_example : (u_step false false false (os1, OBulkDisconnect 1 true (room_opts "q")) (u_run false false false (hist (removelast h_served)))).2 =
  [EWrite 1 (Packet DISCONNECT "/chat" [] None); EDisconnecting 2 "server namespace disconnect"; EDisconnect 2 "server namespace disconnect"; EHangup 1].
Proof. vm_compute. reflexivity. Qed.
(** The same history with the maps in another order. *)
Example C66_orders_example : let h' := (λ o, (SOrds orders_rev (λ _, ord_rev) ord_rev (λ _, ord_rev) id elements, o)) <$> h_served in
  Forall2 (λ e e', e.2 = e'.2 ∧ ∀ l, so_parents e.1 l = so_parents e'.1 l) (hist h_served) h' ∧ env_ok false false false h' ∧ polite false false false h' ∧
  map snd (run false false false (hist h_served)).2 ≠ map snd (run false false false h').2.
Proof.
  cbv zeta. split; [|split; [|split]].
  - unfold hist. apply Forall2_fmap_2. apply Forall_Forall2_diag. apply Forall_forall. intros o _. done.
  - apply env_dec; [|vm_compute; reflexivity]. intros e (o & -> & _)%elem_of_list_fmap.
    assert (order_ok ord_rev) as H by (intros X; apply reverse_Permutation). split_and!; try done.
  - apply polite_dec. vm_compute. reflexivity.
  - intros E. apply (f_equal (λ l, bool_decide (omap (λ e, match e with EWrite c _ => Some c | _ => None end) l = [0; 0; 1; 2; 1; 0; 1]))) in E. vm_compute in E. discriminate E.
Qed.
(** What [polite] excludes: a connection with two sockets in one namespace (C26_two_refuted) has one entry in its table, and packets go to
    the second. *)
Theorem C66_two_refuted : ∃ h : list (sords * op), env_ok false false false h ∧ seen (run false false false h).1 ≠ u_run false false false h.
Proof.
  exists (hist [OOpen "c0" false silent (arr ""); enters 0 "/" "s0"; enters 0 "/" "s1"; OVerdict 0 None; OVerdict 1 None; says 0 "/" [VStr "ev"]]).
  split; [decide_env|]. intros E. apply (f_equal us_tasks) in E. vm_compute in E. discriminate E.
Qed.
Print Assumptions C66_two_refuted.
(** Two sockets with one id (C19_same_id_refuted) have one entry for their rooms. *)
Theorem C66_same_id_refuted : ∃ h : list (sords * op), env_ok true false false h ∧ seen (run true false false h).1 ≠ u_run true false false h.
Proof.
  exists (hist [OOpen "c0" false silent (arr ""); enters 0 "/" "s0"; OVerdict 0 None; OOpen "c1" false silent (arr "");
    OPacket 1 (Packet CONNECT "/" [] None) silent (Arrival "s1" (Some ("s0", ["s0"], []))); OVerdict 1 None; OJoin 0 ["r"]]).
  split; [decide_env|]. intros E. apply (f_equal (λ v, bool_decide ("r" ∈ from_option u_rooms ∅ (us_socks v !! 1)))) in E. vm_compute in E. discriminate E.
Qed.
Print Assumptions C66_same_id_refuted.
