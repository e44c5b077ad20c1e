(** Concrete clusters for the statements about requests between servers. *)
From Verif Require Import Base GoTypes Rooms Adapter AdapterSpec AdapterProofs Cluster ClusterSpec ClusterProofs ClusterReq ClusterReqSpec ClusterReqProofs ClusterExamples ClusterFetch ClusterFetchSpec ClusterFetchProofs ClusterFetchCount ClusterFetchResults.

Definition clash (x y : fop) : bool :=
  match asks x, asks y with Some (n, cb, rid), Some (n', cb', rid') => bool_decide (n = n') && (bool_decide (cb = cb') || bool_decide (rid = rid')) | _, _ => false end.
Fixpoint asks_chk (h : list fop) : bool := match h with [] => true | x :: h => forallb (λ y, negb (clash x y)) h && asks_chk h end.
Lemma clash_sym x y : clash x y = clash y x.
Proof.
  unfold clash. destruct (asks x) as [[[n cb] rid]|], (asks y) as [[[n' cb'] rid']|]; try done.
  f_equal; [by apply bool_decide_ext|f_equal; by apply bool_decide_ext].
Qed.
Lemma asks_chk_ok h : asks_chk h = true → asks_ok h.
Proof.
  intros H. assert (Hp : ∀ i j x y, h !! i = Some x → h !! j = Some y → i < j → clash x y = false).
  { induction h as [|z h IH]; intros i j x y Hi Hj Hij; [done|]. cbn in H. apply andb_true_iff in H as [H1 H2].
    destruct j as [|j]; [lia|]. destruct i as [|i].
    - cbn in Hi, Hj. injection Hi as ->. assert (Hb := H1). rewrite forallb_forall in Hb. specialize (Hb y). apply negb_true_iff, Hb. apply elem_of_list_In. by eapply elem_of_list_lookup_2.
    - apply (IH H2 i j); [done|done|lia]. }
  intros i j x y n cb rid cb' rid' Hi Hj Hij Ex Ey.
  assert (clash x y = false) as Hc. { destruct (decide (i < j)); [by apply (Hp i j)|]. rewrite clash_sym. apply (Hp j i); [done|done|lia]. }
  unfold clash in Hc. rewrite Ex, Ey, (bool_decide_eq_true_2 (n = n)) in Hc by done. cbn in Hc. apply orb_false_iff in Hc as [H1 H2].
  apply bool_decide_eq_false in H1, H2. done.
Qed.
Ltac fops_ok := repeat first [apply Forall_nil_2|apply Forall_cons_2]; cbn; try done; repeat split; try apply ord_std_ok; try (by_eval); try (intros; apply ord_std_ok).

(** Three servers; B and C introduce themselves to A. *)
Definition fx_to : option bopts := Some (BOpts (Some {["r"]}) None None).
Definition fx_local : option bopts := Some (BOpts (Some {["r"]}) None (Some (Flags false false false true false false None false))).
Definition fx_setup : list fop :=
  [FLocal "A" (LOpen "a1"); FLocal "B" (LOpen "b1"); FLocal "B" (LOpen "b2"); FLocal "C" (LOpen "c1");
   FLocal "A" (LJoin "a1" ["r"]); FLocal "B" (LJoin "b1" ["r"; "q"]); FLocal "C" (LJoin "c1" ["r"]);
   FMessage "A" 0 ord_std "B" MInitial; FMessage "A" 1 ord_std "C" MHeartbeat].
Definition fx_fetch : fop := FFetch "A" 0 "q1" fx_to true false ord_std ord_std orders_std.
Definition fx_emit (echo : bool) : fop := FEmit "A" (Some 1) "q2" "ev" [VStr "x"] true echo.
Definition fx_deliver (i : nat) (t : Z) : fop := FDeliver i t ord_std orders_std.
(** Both answer; A's callback gets three sockets. *)
Definition fx_all : list fop := fx_setup ++ fx_fetch :: [fx_deliver 0 2; fx_deliver 0 3; fx_deliver 1 4; FLocal "C" (LJoin "c1" ["z"]); fx_deliver 0 5].
(** C says goodbye before it answers. *)
Definition fx_gone : list fop := fx_setup ++ fx_fetch :: [fx_deliver 0 2; FMessage "A" 3 ord_std "C" MClose; fx_deliver 1 4].
(** C never answers. *)
Definition fx_late : list fop := fx_setup ++ fx_fetch :: [fx_deliver 0 2; fx_deliver 1 3; FTimer "A" "q1"; fx_deliver 0 4].
(** An event to the others; both answer. *)
Definition fx_event : list fop := fx_setup ++ fx_emit true :: [fx_deliver 2 2; fx_deliver 0 3; fx_deliver 0 3; FAnswer "C" "A" "q2" [VStr "c"]; FAnswer "C" "A" "q2" [VStr "again"]; fx_deliver 0 5; FAnswer "B" "A" "q2" [VStr "b"]; fx_deliver 0 6].
Definition fx_event_late : list fop := fx_setup ++ fx_emit true :: [fx_deliver 2 2; FAnswer "C" "A" "q2" [VStr "c"]; fx_deliver 2 3; FTimer "A" "q2"].
Definition fx_run := frun 10 ex_uids.
Lemma fx_ok : Forall (fop_ok ex_uids) fx_all ∧ Forall (fop_ok ex_uids) fx_gone ∧ Forall (fop_ok ex_uids) fx_late ∧ Forall (fop_ok ex_uids) fx_event ∧ Forall (fop_ok ex_uids) fx_event_late.
Proof. split_and!; fops_ok. Qed.
Lemma fx_asks : asks_ok fx_all ∧ asks_ok fx_gone ∧ asks_ok fx_late ∧ asks_ok fx_event ∧ asks_ok fx_event_late.
Proof. split_and!; apply asks_chk_ok; by vm_compute. Qed.

(** C has not introduced itself. *)
Definition fx_stranger : list fop := take 8 fx_setup ++ fx_fetch :: [fx_deliver 0 2; fx_deliver 1 3].
Lemma fx_stranger_ok : Forall (fop_ok ex_uids) fx_stranger ∧ asks_ok fx_stranger.
Proof. split; [fops_ok|apply asks_chk_ok; by vm_compute]. Qed.
Definition has_socket (h : list fop) (m : string) (opts : option bopts) (id : sid) : bool :=
  match fc_nodes (fx_run h) !! m with Some nd => bool_decide (id ∈ fetch_sockets orders_std opts (fn_ns nd)) | None => false end.
Lemma has_socket_spec h m opts id : Forall (fop_ok ex_uids) h → has_socket h m opts id = true → ∃ nd, fc_nodes (fx_run h) !! m = Some nd ∧ matches (fn_ns nd) (opt_rooms opts) (opt_except opts) id.
Proof.
  intros Ho. unfold has_socket. destruct (fc_nodes (fx_run h) !! m) as [nd|] eqn:E; [|done]. intros H%bool_decide_eq_true. exists nd. split; [done|].
  destruct (query_spec orders_std opts (fn_ns nd) ex_orders) as [_ Q]; [exact (run_wf _ _ _ _ _ Ho E)|]. by apply Q.
Qed.
Lemma fx_c1 : has_socket (take 8 fx_stranger) "C" fx_to "c1" = true ∧ has_socket fx_stranger "C" fx_to "c1" = true ∧ outcome (fx_run fx_stranger) "A" 0 = [CalledOk [VStr "a1"; VArr [VStr "b1"; VStrs ["b1"; "r"; "q"]]]].
Proof. split_and!; vm_compute; reflexivity. Qed.
Lemma fx_stranger_lost : ∃ (timeout : Z) (uids : gset string) (h : list fop) (k : nat) (n : string) (cb : nat) (rid : string) (opts : option bopts) (echo : bool) (e1 e2 : order) (os : orders) (l : list value) (m : string) (id : sid),
  Forall (fop_ok uids) h ∧ asks_ok h ∧ h !! k = Some (FFetch n cb rid opts true echo e1 e2 os) ∧ ¬ local_opts opts ∧ outcome (frun timeout uids h) n cb = [CalledOk l] ∧
  m ∈ uids ∧ (∀ j, j = k ∨ j = length h → ∃ nd, fc_nodes (frun timeout uids (take j h)) !! m = Some nd ∧ matches (fn_ns nd) (opt_rooms opts) (opt_except opts) id) ∧
  VStr id ∉ l ∧ ∀ v, VArr [VStr id; v] ∉ l.
Proof.
  exists 10%Z, ex_uids, fx_stranger, 8, "A", 0, "q1", fx_to, false, ord_std, ord_std, orders_std, [VStr "a1"; VArr [VStr "b1"; VStrs ["b1"; "r"; "q"]]], "C", "c1".
  destruct fx_stranger_ok as [Ho Ha]. destruct fx_c1 as (C1 & C2 & C3). split_and!; [done|done|done| |exact C3|by_eval| | |].
  - intros (o & f & [= <-] & Hf & _). done.
  - intros j [->| ->].
    + apply has_socket_spec; [by apply Forall_take|exact C1].
    + rewrite firstn_all. apply has_socket_spec; [done|exact C2].
  - rewrite !elem_of_cons, elem_of_nil. intros [[=]|[[=]|[]]].
  - intros v. rewrite !elem_of_cons, elem_of_nil. intros [[=]|[[=]|[]]].
Qed.

(** A local call. *)
Definition fx_alone : list fop := fx_setup ++ [FFetch "A" 0 "q1" fx_local true false ord_std ord_std orders_std].
Lemma fx_alone_ok : Forall (fop_ok ex_uids) fx_alone ∧ asks_ok fx_alone.
Proof. split; [fops_ok|apply asks_chk_ok; by vm_compute]. Qed.
(** Nothing changes during the call. *)
Definition fx_still : list fop := fx_setup ++ fx_fetch :: [fx_deliver 0 2; fx_deliver 0 3; fx_deliver 1 4; fx_deliver 0 5].
Lemma same_ns n0 h j : Forall (λ op, match op with FLocal _ _ => False | _ => True end) (drop n0 h) → n0 ≤ j →
  ∀ m, (fn_ns <$> fc_nodes (fx_run (take j h)) !! m) = (fn_ns <$> fc_nodes (fx_run h) !! m).
Proof.
  intros HF Hj m. rewrite <-(take_drop j h) at 2. assert (Forall (λ op, match op with FLocal _ _ => False | _ => True end) (drop j h)) as HF'.
  { replace j with (n0 + (j - n0)) by lia. rewrite <-drop_drop. by apply Forall_drop. }
  revert HF'. generalize (take j h), (drop j h). intros a b. induction b as [|op b IH] using rev_ind; intros Hb; [by rewrite app_nil_r|].
  apply Forall_app in Hb as [Hb Hop]. apply Forall_cons in Hop as [Hop _]. rewrite app_assoc. unfold fx_run. rewrite frun_snoc, step_node.
  change (frun 10 ex_uids) with fx_run. rewrite (IH Hb). destruct (fc_nodes (fx_run (a ++ b)) !! m); [|done]. cbn. by destruct op.
Qed.
Definition knows_all (h : list fop) : bool := match fc_nodes (fx_run h) !! "A" with Some nd => bool_decide (ex_uids ∖ {["A"]} ⊆ dom (hb_nodes (fn_hb nd))) | None => false end.
Lemma fx_still_ex : Forall (fop_ok ex_uids) fx_still ∧ asks_ok fx_still ∧ fx_still !! 9 = Some fx_fetch ∧ ¬ local_opts fx_to ∧
  (∀ j u, 9 ≤ j → j ≤ length fx_still → u ∈ ex_uids → u ≠ "A" → knows (fx_run (take j fx_still)) "A" u) ∧
  (∀ j m, 9 ≤ j → j ≤ length fx_still → (fn_ns <$> fc_nodes (fx_run (take j fx_still)) !! m) = (fn_ns <$> fc_nodes (fx_run fx_still) !! m)) ∧
  outcome (fx_run fx_still) "A" 0 = [CalledOk [VStr "a1"; VArr [VStr "c1"; VStrs ["r"; "c1"]]; VArr [VStr "b1"; VStrs ["b1"; "r"; "q"]]]].
Proof.
  split_and!; [fops_ok|apply asks_chk_ok; by vm_compute|done|intros (o & f & [= <-] & Hf & _); done| | |vm_compute; reflexivity].
  - intros j u H1 H2 Hu Hne. assert (Hall : forallb (λ j, knows_all (take j fx_still)) (seq 9 6) = true) by (vm_compute; reflexivity).
    rewrite forallb_forall in Hall. specialize (Hall j). unfold knows_all in Hall. destruct (fc_nodes (fx_run (take j fx_still)) !! "A") as [nd|] eqn:E.
    + exists nd. split; [done|]. apply elem_of_dom. assert (Hj : In j (seq 9 6)) by (apply in_seq; cbn in H2; lia). apply Hall, bool_decide_eq_true in Hj. set_solver.
    + assert (Hj : In j (seq 9 6)) by (apply in_seq; cbn in H2; lia). by apply Hall in Hj.
  - intros j m H1 H2. apply (same_ns 9); [|done]. repeat constructor.
Qed.
