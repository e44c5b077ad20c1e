(** Property C67: the calls of the interleaving model of the lifecycle, made in turn, are the operations of the server. *)
From Verif Require Import Base GoTypes Rooms Adapter AdapterSpec Session System SystemSpec SystemExamples LifeConc LifeConcSpec TurnSpec TurnProofs.

(** ** C67 Lifecycle calls in turn
    C51 is about calls on one socket whose steps are interleaved, C19-C26 about a server whose operations are atomic.  When the calls on
    socket [k] are made one after the other, each ending before the next begins, the two models agree: after all of them on the whole of
    what the interleaving model keeps of the socket, and call by call on what is heard.  Other sockets, on the same connection or in the
    same rooms, make no difference. *)
Theorem C67_turns : ∀ (csr skip clean : bool) (h : list (sords * op)) (k : nat) (ts : list lcall) (es : list (sords * op)) (ns : list nat),
  env_ok csr skip clean (h ++ es) → polite csr skip clean (h ++ es) → sole (run csr skip clean h).1 k → done_by csr skip clean h k ts es → length ns = length ts →
  let c := lc_run (life_of (run csr skip clean h).1 k) ts (turn_by_turn 0 ns) in ended c (seq 0 (length ts)) →
  lf_state c = life_of (run csr skip clean (h ++ es)).1 k ∧
  ∀ i, i < length ts → ∃ l, (run csr skip clean (h ++ take (S i) es)).2 = (run csr skip clean (h ++ take i es)).2 ++ l ∧
    said i (lf_log c) ≡ₚ heard_by (run csr skip clean (h ++ take i es)).1 k l.
Proof. exact c67_turns_l. Qed.
Print Assumptions C67_turns.
(** And they do end. *)
Theorem C67_end : ∀ (csr skip clean : bool) (h : list (sords * op)) (k : nat) (ts : list lcall) (es : list (sords * op)),
  env_ok csr skip clean (h ++ es) → polite csr skip clean (h ++ es) → sole (run csr skip clean h).1 k → done_by csr skip clean h k ts es →
  ∃ ns, length ns = length ts ∧ ended (lc_run (life_of (run csr skip clean h).1 k) ts (turn_by_turn 0 ns)) (seq 0 (length ts)).
Proof. exact c67_end_l. Qed.
Print Assumptions C67_end.

Ltac decide_env := first [apply env_dec; [apply hist_ok|] | apply polite_dec]; vm_compute; reflexivity.
Definition soleb (x : core) (k : nat) : bool :=
  match c_socks x !! k with
  | None => true
  | Some a => forallb (λ j, match c_socks x !! j with
      | Some b => negb (sk_can_join b && bool_decide (sk_id b = sk_id a) && bool_decide (sk_nsp b = sk_nsp a)) || bool_decide (j = k) | None => true end) (seq 0 (length (c_socks x)))
  end.
Lemma sole_dec x k : soleb x k = true → sole x k.
Proof.
  unfold soleb. intros H j a b Hk Hj Hc Hi Hn. rewrite Hk in H. rewrite forallb_forall in H. specialize (H j).
  rewrite in_seq, Hj in H. rewrite Hc, !bool_decide_true in H by done. apply lookup_lt_Some in Hj. cbn in H. apply (bool_decide_eq_true (j = k)). apply H. lia.
Qed.
Definition endedb (c : lconf) (is : list nat) : bool := forallb (λ i, match lf_calls c !! i with Some (_, QDone) => true | _ => false end) is.
Lemma ended_dec c is : endedb c is = true → ended c is.
Proof.
  unfold endedb. rewrite forallb_forall. intros H. apply Forall_forall. intros i Hi%elem_of_list_In. specialize (H i Hi). destruct (lf_calls c !! i) as [[t []]|]; try done. by exists t.
Qed.
(** Socket 3 is admitted, joins "x"; its connection is lost; leaving "x" then changes nothing. *)
Definition t_visit : list lcall := [LcConnect "s3" false; LcJoin (list_to_set ["x"]); LcTransport "transport close"; LcLeave "x"].
Definition o_visit : list op := [OVerdict 3 None; OJoin 3 ["x"]; OTransport 2 "transport close"; OLeave 3 "x"].
Example C67_example : env_ok false false false (hist h_chat ++ hist o_visit) ∧ polite false false false (hist h_chat ++ hist o_visit) ∧ sole (run false false false (hist h_chat)).1 3 ∧
  done_by false false false (hist h_chat) 3 t_visit (hist o_visit) ∧
  let c := lc_run (life_of (run false false false (hist h_chat)).1 3) t_visit (turn_by_turn 0 [12; 3; 15; 2]) in
  ended c (seq 0 4) ∧ (λ i, said i (lf_log c)) <$> seq 0 4 = [[VPacket; VConnect; VConnection]; []; [VDisconnecting "transport close"; VDisconnect "transport close"]; []] ∧
  bool_decide (ls_rooms (life_of (run false false false (hist h_chat)).1 3) = {["r"]}) = true ∧ gone (lf_state c) ∧ bool_decide (ls_rooms (lf_state c) = ∅) = true.
Proof.
  split; [unfold hist; rewrite <- fmap_app; decide_env|]. split; [unfold hist; rewrite <- fmap_app; decide_env|]. split; [apply sole_dec; vm_compute; reflexivity|]. split.
  { split; [done|]. intros [|[|[|[|i]]]] t e Ht He; [| | | |done]; injection Ht as <-; injection He as <-; (eexists; split; [vm_compute; reflexivity|vm_compute; done]). }
  cbv zeta. split; [apply ended_dec; vm_compute; reflexivity|]. split; [vm_compute; reflexivity|]. split; [vm_compute; reflexivity|]. split; [vm_compute; done|vm_compute; reflexivity].
Qed.
(** Socket 1 joins "y" and goes when Disconnect(true) is called on socket 0 of the same connection. *)
Definition t_both : list lcall := [LcJoin (list_to_set ["y"]); LcClient].
Definition o_both : list op := [OJoin 1 ["y"]; ODisconnect 0 true].
Example C67_example_client : env_ok false false false (hist h_chat ++ hist o_both) ∧ polite false false false (hist h_chat ++ hist o_both) ∧ sole (run false false false (hist h_chat)).1 1 ∧
  done_by false false false (hist h_chat) 1 t_both (hist o_both) ∧
  let c := lc_run (life_of (run false false false (hist h_chat)).1 1) t_both (turn_by_turn 0 [3; 25]) in
  ended c (seq 0 2) ∧ said 1 (lf_log c) = [VLeavePacket; VDisconnecting "server namespace disconnect"; VDisconnect "server namespace disconnect"] ∧ gone (lf_state c).
Proof.
  split; [unfold hist; rewrite <- fmap_app; decide_env|]. split; [unfold hist; rewrite <- fmap_app; decide_env|]. split; [apply sole_dec; vm_compute; reflexivity|]. split.
  { split; [done|]. intros [|[|i]] t e Ht He; [| |done]; injection Ht as <-; injection He as <-; (eexists; split; [vm_compute; reflexivity|]).
    - vm_compute. done.
    - cbn. split; [vm_compute; reflexivity|]. eexists. split; [vm_compute; reflexivity|]. split; vm_compute; reflexivity. }
  cbv zeta. split; [apply ended_dec; vm_compute; reflexivity|]. split; [vm_compute; reflexivity|vm_compute; done].
Qed.
(** What [sole] excludes: socket 0 was closed by the shutdown of its namespace and its session recovered on the same connection, so socket 1
    has its id.  The rooms that the registry shows for socket 0 are those of socket 1, and go when the connection does. *)
Definition h_heir : list op := [OOpen "c0" false silent (arr ""); enters 0 "/" "s0"; OVerdict 0 None; OShutdown;
  OPacket 0 (Packet CONNECT "/" [] None) silent (Arrival "s1" (Some ("s0", ["s0"], []))); OVerdict 1 None].
Theorem C67_heir_refuted : ∃ (h : list (sords * op)) (k : nat) (t : lcall) (e : sords * op), env_ok true false false (h ++ [e]) ∧ polite true false false (h ++ [e]) ∧
  done_by true false false h k [t] [e] ∧ let c := lc_run (life_of (run true false false h).1 k) [t] (turn_by_turn 0 [40]) in
  ended c [0] ∧ lf_state c ≠ life_of (run true false false (h ++ [e])).1 k.
Proof.
  exists (hist h_heir), 0, (LcTransport "transport close"), (os1, OTransport 0 "transport close"). split; [apply (env_dec _ _ _ (hist (h_heir ++ [OTransport 0 "transport close"]))); [apply hist_ok|vm_compute; reflexivity]|].
  split; [apply (polite_dec _ _ _ (hist (h_heir ++ [OTransport 0 "transport close"]))); vm_compute; reflexivity|]. split.
  { split; [done|]. intros [|i] t e Ht He; [|done]. injection Ht as <-. injection He as <-. eexists. split; vm_compute; done. }
  cbv zeta. split; [apply ended_dec; vm_compute; reflexivity|]. intros E. apply (f_equal (λ s, bool_decide (ls_rooms s = ∅))) in E. vm_compute in E. discriminate E.
Qed.
Print Assumptions C67_heir_refuted.
